(** Drawing files that are being written. *)
From Coq Require Import String Ascii List Lia Arith Classical_Prop.
From Verif Require Import PyBase PyLib PStr Num MZernike MTel MMath MAperture MRad MCore MFs MOut MTab MPlot MAux MScript SMath SOut SFit SOrder STab SPlot SLook PFs PFit PFit2 PFit3 PFit4 PFit9 PFit7 PCrash PCrash2 PConc2 PRms PTab PLook PLook2 PScript PSetup PPlot4 PFault3 PLook4.
Import ListNotations.
Open Scope R_scope.
Open Scope string_scope.
Open Scope list_scope.
Open Scope prog_scope.

(** [careful], for programs that look only at the files of a list. *)
Definition careful_on (l : list path) {A} (p : prog A) : Prop := (forall s, snd (run p s) = s) /\
  forall st sf a, (forall q, In q l -> complete st q -> sf q = st q) -> fst (run p st) = Ok a -> fst (run p sf) = Ok a.
Lemma on_bind l {A B} (p : prog A) (f : A -> prog B) : careful_on l p -> (forall a, careful_on l (f a)) -> careful_on l (bindP p f).
Proof.
  intros [P1 P2] F. split.
  - intros s. rewrite run_bind, run_split, P1. destruct (fst (run p s)); [apply F|reflexivity].
  - intros st sf b G H. rewrite run_bind, run_split, P1 in H |- *. destruct (fst (run p st)) as [a|e] eqn:E; [|discriminate H].
    rewrite (P2 st sf a G E). exact (proj2 (F a) st sf b G H).
Qed.
Lemma on_read l {A} q (f : doc -> prog A) : In q l -> hopeless (f Partial) -> (forall d, careful_on l (f d)) -> careful_on l (bindP (callE (Read q)) f).
Proof.
  intros Q N F. split.
  - intros s. rewrite run_bind, run_callE. cbn [exec]. destruct (s q) as [[|d]|]; [reflexivity|apply F|reflexivity].
  - intros st sf b G H. rewrite run_bind, run_callE in H |- *. cbn [exec] in *. destruct (st q) as [[|d]|] eqn:E; try discriminate H.
    assert (D : d <> Partial). { intros ->. exact (N st b H). }
    rewrite (G q Q), E by (exists d; auto). exact (proj2 (F d) st sf b G H).
Qed.
Lemma on_ret l {A} (a : A) : careful_on l (Ret a).
Proof. split; [reflexivity|]. intros st sf b _ H. exact H. Qed.
Lemma on_raise l {A} e : careful_on l (@Raise A e).
Proof. split; [reflexivity|]. intros st sf b _ H. exact H. Qed.
Lemma on_lift l {A} (r : res A) : careful_on l (lift r).
Proof. destruct r; [apply on_ret|apply on_raise]. Qed.
Lemma on_parfit l q : In q l -> careful_on l (read_parfit q).
Proof. intros H. unfold read_parfit. apply on_read; [exact H|apply hopeless_raise|]. intros []; first [apply on_raise|apply on_ret]. Qed.
Lemma on_info l q : In q l -> careful_on l (read_info q).
Proof. intros H. unfold read_info. apply on_read; [exact H|apply hopeless_raise|]. intros []; first [apply on_raise|apply on_ret]. Qed.
Lemma on_matrix l q : In q l -> careful_on l (read_matrix q).
Proof.
  intros H. unfold read_matrix. apply on_read; [exact H|apply hopeless_raise|]. intros [| |h []| | | | |]; try apply on_raise. destruct (_ && _)%bool; [apply on_ret|apply on_raise].
Qed.
Definition figure_files (d : path) (n : nat) : list path :=
  [d ++ [fitpar_name n]; d ++ ["pyoof_info.yml"]; d ++ ["beam_data.csv"]; d ++ ["res_n" ^^ dec n ^^ ".csv"]; d ++ ["u_data.csv"]; d ++ ["v_data.csv"]; d ++ ["cov_n" ^^ dec n ^^ ".csv"];
   d ++ ["corr_n" ^^ dec n ^^ ".csv"]].
Lemma on_figures gd pt strict d n illum tel g plim : careful_on (figure_files d n) (figures gd pt strict d n illum tel g plim).
Proof.
  unfold figures. apply on_bind; [apply on_parfit; cbn [figure_files In]; tauto|intros ?]. apply on_bind; [apply on_info; cbn [figure_files In]; tauto|intros ?].
  do 6 (apply on_bind; [apply on_matrix; cbn [figure_files In]; tauto|intros ?]). apply on_bind; [apply on_lift|intros ?]. apply on_ret.
Qed.
Lemma figures_inv gd pt strict d n illum tel g plim s figs : fst (run (figures gd pt strict d n illum tel g plim) s) = Ok figs ->
  (exists i, s (d ++ ["pyoof_info.yml"]) = Some (File (Info i))) /\
  exists h m t f, s (d ++ ["corr_n" ^^ dec n ^^ ".csv"]) = Some (File (Csv h (A2 m))) /\ (2 <= length m)%nat /\ plot_variance strict m n true "$\rho_{ij}$" t = Ok f.
Proof.
  intros H. pose proof (run_split (figures gd pt strict d n illum tel g plim) s) as E. rewrite H in E. set (s' := snd _) in E. clearbody s'. clear H. unfold figures in E.
  apply run_bind_inv in E. destruct E as (params & s1 & E1 & E). pose proof (proj1 (careful_parfit (d ++ [fitpar_name n])) s) as X. rewrite E1 in X. cbn [snd] in X. subst s1.
  apply run_bind_inv in E. destruct E as (i & s1 & E2 & E). pose proof (proj1 (careful_info (d ++ ["pyoof_info.yml"])) s) as X. rewrite E2 in X. cbn [snd] in X. subst s1.
  assert (M : forall q, snd (run (read_matrix q) s) = s) by (intros q; apply (proj1 (careful_matrix q))).
  apply run_bind_inv in E. destruct E as (beam & s1 & E3 & E). pose proof (M (d ++ ["beam_data.csv"])) as X. rewrite E3 in X. cbn [snd] in X. subst s1.
  apply run_bind_inv in E. destruct E as (res_n & s1 & E4 & E). pose proof (M (d ++ ["res_n" ^^ dec n ^^ ".csv"])) as X. rewrite E4 in X. cbn [snd] in X. subst s1.
  apply run_bind_inv in E. destruct E as (u & s1 & E5 & E). pose proof (M (d ++ ["u_data.csv"])) as X. rewrite E5 in X. cbn [snd] in X. subst s1.
  apply run_bind_inv in E. destruct E as (v & s1 & E6 & E). pose proof (M (d ++ ["v_data.csv"])) as X. rewrite E6 in X. cbn [snd] in X. subst s1.
  apply run_bind_inv in E. destruct E as (cov & s1 & E7 & E). pose proof (M (d ++ ["cov_n" ^^ dec n ^^ ".csv"])) as X. rewrite E7 in X. cbn [snd] in X. subst s1.
  apply run_bind_inv in E. destruct E as (corr & s1 & E8 & E). pose proof (M (d ++ ["corr_n" ^^ dec n ^^ ".csv"])) as X. rewrite E8 in X. cbn [snd] in X. subst s1.
  apply run_lift_inv in E. destruct E as (figs' & E9 & _). clear M E1 E3 E4 E5 E6 E7. split.
  - unfold read_info in E2. rewrite run_read in E2. destruct (s (d ++ ["pyoof_info.yml"])) as [[|[]]|]; try discriminate E2. eauto.
  - unfold read_matrix in E8. rewrite run_read in E8. destruct (s (d ++ ["corr_n" ^^ dec n ^^ ".csv"])) as [[|[| |h [|m]| | | | |]]|]; try discriminate E8.
    destruct (Nat.leb 2 (length m) && Nat.leb 2 (ncols m))%bool eqn:B; [|discriminate E8]. injection E8 as ->. apply andb_prop in B as [B _]. apply Nat.leb_le in B.
    unfold fit_figures in E9. cbv zeta in E9.
    repeat (let b := fresh in let Eb := fresh in apply bind_ok in E9; destruct E9 as (b & Eb & E9)).
    match goal with H : plot_variance strict corr _ _ _ ?t = Ok ?f |- _ => exists h, corr, t, f end. split; [reflexivity|]. split; [exact B|assumption].
Qed.

Lemma variance_cut strict m n cb t f c : ncols m = c -> (2 <= length m <= c)%nat -> plot_variance strict m n true cb t <> Ok f.
Proof.
  intros Hc L H. destruct m as [|hd tl]; [cbn in L; lia|]. cbn [ncols] in Hc. cbn [length] in L. unfold plot_variance in H. cbn [py_get nth_error bind] in H.
  apply bind_ok in H. destruct H as (used & _ & H). cbn [skipn] in H. apply bind_ok in H. destruct H as (al & _ & H).
  destruct (Nat.eqb (length tl * length hd) (length tl * length tl)) eqn:E; [|discriminate H]. apply Nat.eqb_eq in E. nia.
Qed.

Section D.
Variables (orc : oracle) (a : fit_args) (s sf seen : fs) (k : nat).
Hypotheses (W : file_tree s) (F : free_number a s) (R : run (fit_zpoly orc a) s = (Ok tt, sf)).
Hypothesis G : glimpse (snd (steps k (fit_zpoly orc a) s)) sf seen.
Hypothesis CM : forall r J p cov cor, or_comat orc r J p = Ok (cov, cor) -> length cor = p.

Lemma one_dir j j' f c c' : s (numbered (fit_dir a) (fa_name a) j) = None -> s (numbered (fit_dir a) (fa_name a) j') = None ->
  sf (numbered (fit_dir a) (fa_name a) j ++ [f]) = Some (File c) -> sf (numbered (fit_dir a) (fa_name a) j' ++ [f]) = Some (File c') -> j = j'.
Proof.
  destruct (fit_files orc a s sf W R F) as (j2 & _ & D2 & _ & _ & _ & _ & Fr).
  assert (Z : forall j0 dc, s (numbered (fit_dir a) (fa_name a) j0) = None -> sf (numbered (fit_dir a) (fa_name a) j0 ++ [f]) = Some (File dc) -> j0 = j2).
  { intros j0 dc D0 E0. destruct (Nat.eq_dec j0 j2) as [Q|Ne]; [exact Q|]. exfalso. rewrite Fr in E0; [rewrite (wf_under s _ _ W D0) in E0; discriminate E0| | |].
    - intros [t A]. apply (f_equal (@length _)) in A. rewrite !app_length, !numbered_length in A. cbn [length] in A. lia.
    - intros _ _ A. apply same_length_app in A as [A _]; [|rewrite !numbered_length; reflexivity]. apply numbered_inj in A. destruct A. contradiction.
    - intros g Hg A. apply same_length_app in A as [A _]; [|rewrite !numbered_length; reflexivity]. apply numbered_inj in A. destruct A. contradiction. }
  intros D D' E E'. rewrite (Z j c D E), (Z j' c' D' E'). reflexivity.
Qed.
Lemma cut_corr strict d n i h m t f : seen (d ++ ["pyoof_info.yml"]) = Some (File (Info i)) -> seen (d ++ ["corr_n" ^^ dec n ^^ ".csv"]) = Some (File (Csv h (A2 m))) -> (2 <= length m)%nat ->
  plot_variance strict m n true "$\rho_{ij}$" t = Ok f -> sf (d ++ ["corr_n" ^^ dec n ^^ ".csv"]) = Some (File (Csv h (A2 m))).
Proof.
  intros I Hc Lm Hx. destruct (G (d ++ ["corr_n" ^^ dec n ^^ ".csv"])) as [X|(X & final & c0 & X1 & X2 & X3)].
  - rewrite (agree_cut orc a s sf k W F R); [congruence|]. exists (Csv h (A2 m)). split; [discriminate|congruence].
  - assert (c0 = Csv h (A2 m)) as -> by congruence. exfalso. assert (Nc : Csv h (A2 m) <> Partial) by discriminate.
    destruct (where_is orc a s sf seen k W F R G d _ final _ i X X1 X2 Nc I) as (j & J & D & -> & Hd).
    apply (doc_order _ _ "corr" n (or_intror (or_introl eq_refl))) in Hd.
    assert (Cc : exists cf, configured a s cf). { unfold fit_zpoly in R. cbv zeta in R. apply run_bind_inv in R. destruct R as (cf & sx & Hcf & _). exists cf. exact (load_configured_inv a s cf sx Hcf). }
    destruct Cc as (cf & Cc). destruct (stored_together orc a s sf cf W R F Cc) as (j' & snrs & J' & D' & _ & _ & St). cbv zeta in St.
    destruct (St n Hd) as (rows & out & r & [xa ya] & ph & cov & cor & idx & _ & _ & _ & _ & _ & _ & _ & _ & _ & _ & _ & _ & _ & _ & OC & _ & CC).
    pose proof (CM _ _ _ _ _ OC) as LC.
    unfold csv_file in CC. rewrite (one_dir j' j _ _ _ D' D CC X1) in CC. rewrite CC in X1. injection X1 as <-.
    inversion X2 as [Q|h0 m0 q Q Lq Q'|h0 m0 q Q Lq Q'|rows0 q Q Lq Q']; subst; try discriminate.
    assert (E0 : m0 = map (map Fin) (idx :: cor)) by (apply (f_equal (fun c => match c with Csv _ (A2 x) => x | _ => [] end)) in Q; symmetry; exact Q). rewrite E0 in *. clear E0 Q. rewrite map_length in Lq. cbn [length] in Lq. rewrite firstn_length, map_length in Lm. cbn [length] in Lm.
    destruct q as [|q]; [lia|]. apply (variance_cut strict _ n _ t f (length idx)) in Hx; [exact Hx| |].
    + cbn [map firstn ncols]. apply map_length.
    + rewrite firstn_length, map_length. cbn [length]. lia.
Qed.

Lemma cut_figures gd pt strict d n illum tel g plim figs : fst (run (draw_fit_path gd pt strict d n illum tel g plim false) seen) = Ok figs ->
  fst (run (draw_fit_path gd pt strict d n illum tel g plim false) sf) = Ok figs.
Proof.
  rewrite draw_split. set (p := figures _ _ _ _ _ _ _ _ _).
  assert (Wf : file_tree sf). { destruct (steps_finish (fit_zpoly orc a) s) as [m Hm]. pose proof (steps_wf m (fit_zpoly orc a) s W) as X. rewrite Hm, R in X. exact X. }
  assert (X : forall s1, (forall q c, s1 q = Some (File c) -> seen q = Some (File c)) -> fst (run p s1) = Ok figs ->
    fst (run (b <- call (Exists (d ++ ["plots"])) ;; (if b then Ret tt else makedirs (d ++ ["plots"]) false) ;;; p) sf) = Ok figs).
  { intros s1 Sub H. destruct (figures_inv _ _ _ _ _ _ _ _ _ _ _ H) as ((i & Ei) & h & m & t & f & Ec & Lm & Pv). apply Sub in Ei, Ec.
    assert (A : forall q, In q (figure_files d n) -> complete s1 q -> sf q = s1 q).
    { intros q Hq (c & Nc & Eq). rewrite Eq. apply Sub in Eq.
      assert (Nb : forall x, In x ["fitpar_n" ^^ dec n ^^ ".csv"; "pyoof_info.yml"; "beam_data.csv"; "u_data.csv"; "v_data.csv"; "res_n" ^^ dec n ^^ ".csv"; "cov_n" ^^ dec n ^^ ".csv"] ->
        q = d ++ [x] -> sf q = Some (File c)).
      { intros x Hx ->. exact (no_beginning orc a s sf seen k W F R G d n x _ i _ c Ei (or_introl (conj eq_refl Hx)) Ec ltac:(discriminate) Eq Nc). }
      destruct Hq as [Hq|[Hq|[Hq|[Hq|[Hq|[Hq|[Hq|[Hq|[]]]]]]]]]; symmetry in Hq; try (eapply Nb; [|exact Hq]; cbn [In]; tauto).
      subst q. rewrite Ec in Eq. injection Eq as <-. exact (cut_corr strict d n i h m t f Ei Ec Lm Pv). }
    assert (Si : sf (d ++ ["pyoof_info.yml"]) = Some (File (Info i))) by (apply (no_beginning orc a s sf seen k W F R G d n "pyoof_info.yml" _ i _ _ Ei (or_introl (conj eq_refl (or_intror (or_introl eq_refl)))) Ec ltac:(discriminate) Ei); discriminate).
    assert (D : sf d = Some Dir) by (apply (proj2 Wf) with (c := "pyoof_info.yml"); rewrite Si; discriminate).
    rewrite run_bind, run_call. cbn [exec fst snd]. destruct (sf (d ++ ["plots"])) as [nd|] eqn:E.
    - cbn [bindP]. exact (proj2 (on_figures _ _ _ _ _ _ _ _ _) s1 sf figs A H).
    - rewrite run_bind, (run_makedirs_new d "plots" false sf D E). apply (proj2 (on_figures gd pt strict d n illum tel g plim) s1 _ figs); [|exact H].
      intros q Hq C. rewrite upd_other; [exact (A q Hq C)|]. intros ->. rewrite (A _ Hq C) in E. destruct C as (dc & _ & C1). congruence. }
  intros H. rewrite run_bind, run_call in H. cbn [exec fst snd] in H. destruct (seen (d ++ ["plots"])) as [nd|] eqn:E.
  - exact (X seen (fun q c Q => Q) H).
  - rewrite run_bind in H.
    pose proof (always_run _ _ _ (mkdirs_way _ _ seen (makedirs_only (d ++ ["plots"]) false))) as DW.
    destruct (run (makedirs (d ++ ["plots"]) false) seen) as [[[]|e] s1]; [|discriminate H]. cbn [snd] in DW. apply (X s1); [|exact H].
    intros q c Q. destruct (DW q) as [E1|(_ & E1 & _)]; congruence.
Qed.
End D.

(** A moment at which any number of rows of the phase of order n can be seen. *)
Lemma rows_seen isot (orc : oracle) (a : fit_args) s sf n q : file_tree s -> free_number a s -> run (fit_zpoly orc a) s = (Ok tt, sf) -> (1 <= n <= fa_order_max a)%nat -> (q < 1000)%nat ->
  exists k seen j h m, glimpse (snd (steps k (fit_zpoly orc a) s)) sf seen /\ s (numbered (fit_dir a) (fa_name a) j) = None /\
    let d := numbered (fit_dir a) (fa_name a) j in
    csv_file sf d ("phase_n" ^^ dec n ^^ ".csv") h (A2 m) /\ length m = 1000%nat /\ csv_file seen d ("phase_n" ^^ dec n ^^ ".csv") h (A2 (firstn q m)) /\
    fst (run (table_pyoof_out isot [d] n) seen) = Err IndexError.
Proof.
  intros W F R L Lq.
  assert (Cc : exists cf, configured a s cf). { unfold fit_zpoly in R. cbv zeta in R. apply run_bind_inv in R. destruct R as (cf & sx & Hcf & _). exists cf. exact (load_configured_inv a s cf sx Hcf). }
  destruct Cc as (cf & Cc). destruct (stored_together orc a s sf cf W R F Cc) as (j & snrs & J & D & _ & St0 & St). cbv zeta in St0, St.
  destruct (St n L) as (rows & out & r & [xa ya] & ph & cov & cor & idx & _ & _ & _ & _ & _ & _ & _ & _ & _ & _ & _ & HP & CP & _).
  destruct St0 as (_ & _ & _ & i & SI & _); [lia|].
  pose proof (map_fin_square _ _ (phase_square _ _ _ _ _ _ _ _ HP)) as SQ. clear HP. destruct SQ as [S1 S2].
  set (d := numbered (fit_dir a) (fa_name a) j) in *. set (m := map (map Fin) ph) in *. clearbody m. unfold csv_file in CP. set (x := "phase_n" ^^ dec n ^^ ".csv") in *.
  assert (Nx : s (d ++ [x]) = None) by exact (wf_under s d [x] W D).
  destruct (put_point (fit_zpoly orc a) s (Ok tt) sf (d ++ [x]) R) as (k & dd & kk & _ & Pk).
  { intros (dc & _ & E). rewrite Nx in E. discriminate E. }
  { eexists. split; [|exact CP]. discriminate. }
  set (st := snd (steps k (fit_zpoly orc a) s)) in *. set (h := "Phase-error radians " ^^ fa_name a) in *. clearbody h.
  exists k, (upd st (d ++ [x]) (File (Csv h (A2 (firstn q m))))), j, h, m. cbv zeta. fold st d.
  assert (Ux : upd st (d ++ [x]) (File (Csv h (A2 (firstn q m)))) (d ++ [x]) = Some (File (Csv h (A2 (firstn q m))))) by (unfold upd; destruct (path_eq_dec _ _); congruence).
  split; [|split; [exact D|split; [exact CP|split; [exact S1|split; [exact Ux|]]]]].
  - intros q0. unfold upd. destruct (path_eq_dec q0 (d ++ [x])) as [->|Ne]; [right|left; reflexivity].
    split; [exact Pk|]. exists (Csv h (A2 m)), (Csv h (A2 (firstn q m))). split; [exact CP|]. split; [|reflexivity]. apply first_rows; [reflexivity|lia].
  - assert (Ei : upd st (d ++ [x]) (File (Csv h (A2 (firstn q m)))) (d ++ ["pyoof_info.yml"]) = Some (File (Info i))).
    { rewrite upd_other by (intros Z; apply app_inv_head in Z; discriminate Z). rewrite <- SI. symmetry. unfold st. apply (agree_cut orc a s sf k W F R). fold st.
      destruct (earlier n (fa_order_max a) (fa_make_plots a) "pyoof_info.yml" x L (or_intror (conj eq_refl (or_intror (or_introl eq_refl))))) as (before & after & E & In1).
      apply (sequence_any orc a s j st W F D (or_introl (ex_intro _ k eq_refl)) before [x] after E); [fold d; rewrite Pk; discriminate|exact In1]. }
    unfold table_pyoof_out. rewrite run_bind. cbn [table_rows]. rewrite run_bind. unfold table_row. rewrite run_read, Ei, run_read. fold x. rewrite Ux, run_lift_bind. cbn [read_phase].
    destruct (Nat.leb 2 (length (firstn q m)) && Nat.leb 2 (ncols (firstn q m)))%bool eqn:B; [|reflexivity]. apply andb_prop in B as [B _]. apply Nat.leb_le in B.
    rewrite run_lift_bind, rms_circ_not_square; [reflexivity|]. rewrite firstn_length in B |- *. destruct m as [|r0 tl]; [cbn in B; lia|]. destruct q as [|q]; [lia|]. cbn [firstn ncols].
    rewrite (S2 r0 (or_introl eq_refl)). lia.
Qed.
