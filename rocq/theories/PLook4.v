(** Reading files that are being written. *)
From Coq Require Import String Ascii List Lia Arith Classical_Prop.
From Verif Require Import PyBase PyLib PStr Num MZernike MMath MAperture MRad MCore MFs MOut MTab MPlot MAux MScript SMath SOut SFit SOrder STab SLook PFs PFit PFit2 PFit3 PFit4 PFit9 PFit7 PCrash PCrash2 PConc2 PRms PTab PLook PLook2 PScript PSetup.
Import ListNotations.
Open Scope R_scope.
Open Scope string_scope.
Open Scope list_scope.
Open Scope prog_scope.

Section L.
Variables (orc : oracle) (a : fit_args) (s sf seen : fs) (k : nat).
Hypotheses (W : file_tree s) (F : free_number a s) (R : run (fit_zpoly orc a) s = (Ok tt, sf)).
Let st := snd (steps k (fit_zpoly orc a) s).
Hypothesis G : glimpse st sf seen.

Lemma begun final d : beginning final d -> d <> Partial -> final <> Partial.
Proof. intros [|h m i ->|h m i ->|rows i ->] N; congruence. Qed.
Lemma present q d : seen q = Some (File d) -> d <> Partial -> exists d', d' <> Partial /\ sf q = Some (File d').
Proof.
  intros E N. destruct (G q) as [X|(X & final & d' & X1 & X2 & X3)].
  - exists d. split; [exact N|]. rewrite (agree_cut orc a s sf k W F R q); [fold st; congruence|]. exists d. fold st. split; congruence.
  - exists final. assert (d' = d) as -> by congruence. split; [exact (begun final d X2 N)|exact X1].
Qed.
(** A file that is there at the end and not before. *)
Lemma made q d : s q = None -> sf q = Some (File d) -> exists j f, (j <= 100)%nat /\ s (numbered (fit_dir a) (fa_name a) j) = None /\
  In f (documented (fa_order_max a) (fa_make_plots a)) /\ q = numbered (fit_dir a) (fa_name a) j ++ f.
Proof.
  intros N E. destruct (fit_files orc a s sf W R F) as (j & J & D & _ & _ & Ab & Pl & Fr).
  destruct (classic (exists f, In f (documented (fa_order_max a) (fa_make_plots a)) /\ q = numbered (fit_dir a) (fa_name a) j ++ f)) as [(f & Hf & E1)|No]; [exists j, f; auto|].
  exfalso. assert (X : sf q = s q).
  { apply Fr.
    - intros A. rewrite (Ab q A) in E. discriminate E.
    - intros P1 P2 ->. rewrite (Pl P1 P2) in E. discriminate E.
    - intros f Hf ->. apply No. exists f. auto. }
  congruence.
Qed.
Lemma unfinished q final d : st q = Some (File Partial) -> sf q = Some (File final) -> beginning final d -> d <> Partial -> s q = None.
Proof.
  intros X1 X2 B N. destruct (s q) as [nd|] eqn:E; [|reflexivity]. exfalso.
  pose proof (proj1 (always_steps _ _ _ k (fit_always orc a s W F)) q) as U1. pose proof (always_run _ _ _ (fit_always orc a s W F) q) as U2. rewrite R in U2. cbn [snd] in U2.
  fold st in U1. rewrite U1 in X1 by congruence. rewrite U2 in X2 by congruence. apply (begun final d B N). congruence.
Qed.
Lemma doc_info N pl f : In f (documented N pl) -> f = ["pyoof_info.yml"] \/ last f "" <> "pyoof_info.yml".
Proof.
  intros H. destruct N as [|N]; [destruct H|]. unfold documented in H. apply in_app_or in H as [H|H].
  - apply in_map_iff in H as (g & <- & _). destruct (string_dec g "pyoof_info.yml") as [->|Ne]; [left; reflexivity|right; exact Ne].
  - right. destruct pl; [|destruct H]. apply in_map_iff in H as (g & <- & H). cbn [last]. destruct H as [<-|H]; [discriminate|].
    apply in_flat_map in H as (m & _ & H). apply in_map_iff in H as (stem & <- & H). cbn [In] in H.
    repeat match goal with H : _ \/ _ |- _ => destruct H as [H|H] end; subst; try contradiction; discriminate.
Qed.
(** The directory of a file of which a beginning is seen is that of the run, if its description is there. *)
Lemma where_is d x final c i : st (d ++ [x]) = Some (File Partial) -> sf (d ++ [x]) = Some (File final) -> beginning final c -> c <> Partial ->
  seen (d ++ ["pyoof_info.yml"]) = Some (File (Info i)) ->
  exists j, (j <= 100)%nat /\ s (numbered (fit_dir a) (fa_name a) j) = None /\ d = numbered (fit_dir a) (fa_name a) j /\ In [x] (documented (fa_order_max a) (fa_make_plots a)).
Proof.
  intros X1 X2 B N I. pose proof (unfinished _ final c X1 X2 B N) as E. destruct (made _ _ E X2) as (j & f & J & D & Hf & Eq).
  assert (Sd : s d = None).
  { assert (f <> []) by (intros ->; destruct (fa_order_max a) as [|o]; [destruct Hf|]; unfold documented in Hf; apply in_app_or in Hf as [Hf|Hf]; [|destruct (fa_make_plots a); [|destruct Hf]]; apply in_map_iff in Hf as (? & Z & _); discriminate Z).
    destruct (exists_last H) as (f' & y & ->). rewrite app_assoc in Eq. apply app_inj_tail in Eq as [-> _].
    destruct f' as [|z t]; [rewrite app_nil_r; exact D|]. apply (wf_under s _ (z :: t) W D). }
  assert (Si : s (d ++ ["pyoof_info.yml"]) = None) by exact (wf_under s d _ W Sd).
  destruct (present _ _ I) as (d' & _ & Ei); [discriminate|]. destruct (made _ _ Si Ei) as (j' & f' & J' & D' & Hf' & Eq').
  destruct (doc_info _ _ _ Hf') as [->|Ne].
  - apply app_inj_tail in Eq' as [-> _]. exists j'. split; [exact J'|]. split; [exact D'|]. split; [reflexivity|].
    assert (f = [x]) as <-; [|exact Hf].
    pose proof (f_equal (@length _) Eq) as L. rewrite !app_length, !numbered_length in L. cbn [length] in L.
    destruct f as [|z [|? ?]]; cbn [length] in L; try lia. apply same_length_app in Eq as [_ Eq]; [symmetry; exact Eq|rewrite !numbered_length; reflexivity].
  - exfalso. apply Ne. apply (f_equal (fun l => last l "")) in Eq'. rewrite last_last in Eq'.
    assert (f' <> []) by (intros ->; destruct (fa_order_max a) as [|o]; [destruct Hf'|]; unfold documented in Hf'; apply in_app_or in Hf' as [Hf'|Hf']; [|destruct (fa_make_plots a); [|destruct Hf']]; apply in_map_iff in Hf' as (? & Z & _); discriminate Z).
    destruct (exists_last H) as (f0 & y & ->). rewrite app_assoc, last_last in Eq'. rewrite last_last. symmetry. exact Eq'.
Qed.

Lemma run_split_at n N pl : (1 <= n <= N)%nat -> exists A B, run_sequence N pl = A ++ order_sequence n pl ++ B /\ (n = 1%nat \/ forall x, In x (order_sequence 1 pl) -> In x A).
Proof.
  intros L. unfold run_sequence. replace N with ((n - 1) + (1 + (N - n)))%nat by lia. rewrite !seq_app, !flat_map_app. replace (1 + (n - 1))%nat with n by lia. cbn [seq flat_map app]. rewrite app_nil_r.
  eexists _, _. split; [reflexivity|]. destruct (Nat.eq_dec n 1) as [E|Ne]; [left; exact E|right]. intros x H. apply in_flat_map. exists 1%nat. split; [apply in_seq; lia|exact H].
Qed.
(** Files of a list of the run in which no other is between. *)
Lemma earlier n N pl f x : (1 <= n <= N)%nat ->
  (x = "corr_n" ^^ dec n ^^ ".csv" /\ In f ["fitpar_n" ^^ dec n ^^ ".csv"; "pyoof_info.yml"; "beam_data.csv"; "u_data.csv"; "v_data.csv"; "res_n" ^^ dec n ^^ ".csv"; "cov_n" ^^ dec n ^^ ".csv"]) \/
  (x = "phase_n" ^^ dec n ^^ ".csv" /\ In f ["fitpar_n" ^^ dec n ^^ ".csv"; "pyoof_info.yml"]) ->
  exists before after, run_sequence N pl = before ++ [x] :: after /\ In [f] before.
Proof.
  intros L H. destruct (run_split_at n N pl L) as (A & B & E & Fst). rewrite E. clear E.
  assert (First : In f ["pyoof_info.yml"; "beam_data.csv"; "u_data.csv"; "v_data.csv"] -> n = 1%nat \/ In [f] A).
  { intros I. destruct Fst as [E|Fst]; [left; exact E|right]. apply Fst. unfold order_sequence. apply in_or_app. left. apply (in_map (fun f => [f])). right. apply in_or_app. left. cbn [Nat.eqb]. exact I. }
  assert (Gen : forall P S, order_sequence n pl = P ++ [x] :: S -> In [f] P \/ In [f] A -> exists before after, A ++ order_sequence n pl ++ B = before ++ [x] :: after /\ In [f] before).
  { intros P S E I. exists (A ++ P), (S ++ B). split; [rewrite E, <- !app_assoc; reflexivity|]. apply in_or_app. tauto. }
  set (I1 := map (fun f : string => [f]) (if Nat.eqb n 1 then ["pyoof_info.yml"; "beam_data.csv"; "u_data.csv"; "v_data.csv"] else [])).
  assert (I1' : n = 1%nat -> In f ["pyoof_info.yml"; "beam_data.csv"; "u_data.csv"; "v_data.csv"] -> In [f] I1).
  { intros E I. unfold I1. rewrite E. cbn [Nat.eqb]. exact (in_map (fun f => [f]) _ _ I). }
  set (figs := if pl then map (fun f => ["plots"; f]) (order_figures n ++ if Nat.eqb n 1 then ["obsbeam.pdf"] else []) else []).
  set (nm := fun stem : string => [stem ^^ "_n" ^^ dec n ^^ ".csv"]).
  assert (OS : order_sequence n pl = nm "fitpar" :: I1 ++ [nm "res"; nm "jac"; nm "grad"; nm "phase"; nm "cov"; nm "corr"] ++ figs).
  { unfold order_sequence. fold figs. cbn [map]. rewrite map_app. fold I1. cbn [map app]. rewrite <- app_assoc. reflexivity. }
  destruct H as [[-> I]|[-> I]].
  - apply (Gen (nm "fitpar" :: I1 ++ [nm "res"; nm "jac"; nm "grad"; nm "phase"; nm "cov"]) figs).
    + rewrite OS. cbn [app]. rewrite <- app_assoc. reflexivity.
    + assert (C : In f ["pyoof_info.yml"; "beam_data.csv"; "u_data.csv"; "v_data.csv"] \/ [f] = nm "fitpar" \/ [f] = nm "res" \/ [f] = nm "cov").
      { cbn [In] in I |- *. destruct I as [<-|[<-|[<-|[<-|[<-|[<-|[<-|[]]]]]]]]; unfold nm; auto 10. }
      destruct C as [C|[C|[C|C]]].
      * destruct (First C) as [E1|E1]; [left|right; exact E1]. right. apply in_or_app. left. exact (I1' E1 C).
      * left. left. symmetry. exact C.
      * left. right. apply in_or_app. right. rewrite C. left. reflexivity.
      * left. right. apply in_or_app. right. rewrite C. do 4 right. left. reflexivity.
  - apply (Gen (nm "fitpar" :: I1 ++ [nm "res"; nm "jac"; nm "grad"]) ([nm "cov"; nm "corr"] ++ figs)).
    + rewrite OS. cbn [app]. rewrite <- app_assoc. reflexivity.
    + destruct I as [<-|[<-|[]]]; [left; left; reflexivity|]. destruct First as [E1|E1]; [left; reflexivity| |right; exact E1].
      left. right. apply in_or_app. left. apply I1'; [exact E1|left; reflexivity].
Qed.
Lemma doc_order N pl stem n : In stem ["phase"; "corr"] -> In [stem ^^ "_n" ^^ dec n ^^ ".csv"] (documented N pl) -> (1 <= n <= N)%nat.
Proof.
  intros St Hf. destruct N as [|N]; [destruct Hf|]. unfold documented in Hf. apply in_app_or in Hf as [Hf|Hf].
  - apply in_map_iff in Hf as (g & E & Hf). assert (E' : g = stem ^^ "_n" ^^ dec n ^^ ".csv") by congruence. clear E. apply in_app_or in Hf as [Hf|Hf].
    + exfalso. destruct St as [<-|[<-|[]]]; cbn in Hf; decompose [or] Hf; subst; try discriminate; contradiction.
    + apply in_flat_map in Hf as (m & Hm & Hf). apply in_seq in Hm. apply in_map_iff in Hf as (stem' & E & Hf). rewrite E' in E. clear E'.
      assert (stem' = stem) as ->.
      { destruct St as [<-|[<-|[]]]; cbn [In] in Hf; repeat match goal with H : _ \/ _ |- _ => destruct H as [H|H] end; subst; try contradiction; try reflexivity; cbn in E; discriminate E. }
      apply sapp_inv_head, (sapp_inv_head "_n"), sapp_inv_tail, dec_inj in E. lia.
  - exfalso. destruct pl; [|destruct Hf]. apply in_map_iff in Hf as (g & E & _). discriminate E.
Qed.
(** Of the files before one that is there, no beginning is seen. *)
Lemma no_beginning d n f x i c c' : seen (d ++ ["pyoof_info.yml"]) = Some (File (Info i)) ->
  (x = "corr_n" ^^ dec n ^^ ".csv" /\ In f ["fitpar_n" ^^ dec n ^^ ".csv"; "pyoof_info.yml"; "beam_data.csv"; "u_data.csv"; "v_data.csv"; "res_n" ^^ dec n ^^ ".csv"; "cov_n" ^^ dec n ^^ ".csv"]) \/
  (x = "phase_n" ^^ dec n ^^ ".csv" /\ In f ["fitpar_n" ^^ dec n ^^ ".csv"; "pyoof_info.yml"]) ->
  seen (d ++ [x]) = Some (File c) -> c <> Partial -> seen (d ++ [f]) = Some (File c') -> c' <> Partial -> sf (d ++ [f]) = Some (File c').
Proof.
  intros I H Hx Nx Hf Nf. destruct (G (d ++ [f])) as [X|(X & final & c0 & X1 & X2 & X3)].
  - rewrite (agree_cut orc a s sf k W F R (d ++ [f])); [fold st; congruence|]. exists c'. fold st. split; congruence.
  - assert (c0 = c') as -> by congruence. exfalso. destruct (where_is d f final c' i X X1 X2 Nf I) as (j & J & D & -> & _).
    assert (L : (1 <= n <= fa_order_max a)%nat).
    { destruct (present _ _ Hx Nx) as (dx & _ & Ex). destruct (made _ _ (wf_under s _ [x] W D) Ex) as (j' & f' & _ & D' & Hd & Eq).
      assert (Hd' : In [x] (documented (fa_order_max a) (fa_make_plots a))).
      { assert (f' = [x]) as <-; [|exact Hd].
        pose proof (f_equal (@length _) Eq) as L. rewrite !app_length, !numbered_length in L. cbn [length] in L.
        destruct f' as [|z [|? ?]]; cbn [length] in L; try lia. apply same_length_app in Eq as [_ Eq]; [symmetry; exact Eq|rewrite !numbered_length; reflexivity]. }
      destruct H as [[-> _]|[-> _]]; [apply (doc_order _ _ "corr" n (or_intror (or_introl eq_refl)) Hd')|apply (doc_order _ _ "phase" n (or_introl eq_refl) Hd')]. }
    destruct (earlier n (fa_order_max a) (fa_make_plots a) f x L H) as (before & after & E & In1).
    pose proof (sequence_any orc a s j st W F D (or_introl (ex_intro _ k eq_refl)) before [x] after E) as Q.
    destruct (Q ltac:(intros Z; destruct (G (numbered (fit_dir a) (fa_name a) j ++ [x])) as [Y|(Y & _)]; congruence) [f] In1) as (dc & Ndc & Edc).
    rewrite X in Edc. injection Edc as <-. exact (Ndc eq_refl).
Qed.
End L.

Lemma cut_phase (orc : oracle) (a : fit_args) (s sf seen : fs) k : file_tree s -> free_number a s -> run (fit_zpoly orc a) s = (Ok tt, sf) ->
  glimpse (snd (steps k (fit_zpoly orc a) s)) sf seen -> forall d n i c m x, seen (d ++ ["pyoof_info.yml"]) = Some (File (Info i)) ->
  seen (d ++ ["phase_n" ^^ dec n ^^ ".csv"]) = Some (File c) -> read_phase c = Ok m -> rms_circ m = Ok x -> sf (d ++ ["phase_n" ^^ dec n ^^ ".csv"]) = Some (File c).
Proof.
  intros W F R G d n i c m x I Hc Rd Hx. assert (Nc : c <> Partial) by (intros ->; discriminate Rd).
  destruct (G (d ++ ["phase_n" ^^ dec n ^^ ".csv"])) as [X|(X & final & c0 & X1 & X2 & X3)].
  - rewrite (agree_cut orc a s sf k W F R); [congruence|]. exists c. split; congruence.
  - assert (c0 = c) as -> by congruence. exfalso. destruct (where_is orc a s sf seen k W F R G d _ final c i X X1 X2 Nc I) as (j & J & D & -> & Hd).
    apply (doc_order _ _ "phase" n (or_introl eq_refl)) in Hd.
    assert (Cc : exists cf, configured a s cf). { unfold fit_zpoly in R. cbv zeta in R. apply run_bind_inv in R. destruct R as (cf & sx & Hcf & _). exists cf. exact (load_configured_inv a s cf sx Hcf). }
    destruct Cc as (cf & Cc). destruct (stored_together orc a s sf cf W R F Cc) as (j' & snrs & J' & D' & _ & _ & St). cbv zeta in St.
    destruct (St n Hd) as (rows & out & r & [xa ya] & ph & cov & cor & idx & _ & _ & _ & _ & _ & _ & _ & _ & _ & _ & _ & HP & CP & _).
    assert (j' = j) as ->.
    { destruct (made orc a s sf W F R _ _ (wf_under s _ ["phase_n" ^^ dec n ^^ ".csv"] W D) X1) as (j1 & f1 & _ & _ & _ & E1).
      destruct (fit_files orc a s sf W R F) as (j2 & _ & D2 & _ & _ & _ & _ & Fr).
      assert (Z : forall j0 dc, s (numbered (fit_dir a) (fa_name a) j0) = None -> sf (numbered (fit_dir a) (fa_name a) j0 ++ ["phase_n" ^^ dec n ^^ ".csv"]) = Some (File dc) -> j0 = j2).
      { intros j0 dc D0 E0. destruct (Nat.eq_dec j0 j2) as [Q|Ne]; [exact Q|]. exfalso. rewrite Fr in E0; [rewrite (wf_under s _ _ W D0) in E0; discriminate E0| | |].
        - intros [t A]. apply (f_equal (@length _)) in A. rewrite !app_length, !numbered_length in A. cbn [length] in A. lia.
        - intros _ _ A. apply same_length_app in A as [A _]; [|rewrite !numbered_length; reflexivity]. apply numbered_inj in A. destruct A. contradiction.
        - intros f Hf A. apply same_length_app in A as [A _]; [|rewrite !numbered_length; reflexivity]. apply numbered_inj in A. destruct A. contradiction. }
      rewrite (Z j' _ D' CP), (Z j _ D X1). reflexivity. }
    unfold csv_file in CP. rewrite CP in X1. injection X1 as <-. pose proof (map_fin_square _ _ (phase_square _ _ _ _ _ _ _ _ HP)) as SQ.
    inversion X2 as [Q|h m0 q Q Lq Q'|h m0 q Q Lq Q'|rows0 q Q Lq Q']; subst; try congruence; try discriminate. injection Q as <- <-.
    cbn [read_phase] in Rd. destruct (Nat.leb 2 (length (firstn q (map (map Fin) ph))) && Nat.leb 2 (ncols (firstn q (map (map Fin) ph)))) eqn:B; [|discriminate Rd]. injection Rd as <-.
    apply andb_prop in B as [B1 B2]. apply Nat.leb_le in B1. rewrite rms_circ_not_square in Hx; [discriminate Hx|].
    destruct SQ as [S1 S2]. rewrite firstn_length in B1 |- *. destruct (map (map Fin) ph) as [|r0 tl] eqn:E0; [cbn in B1; lia|]. destruct q as [|q]; [lia|]. cbn [firstn]. unfold ncols.
    rewrite (S2 r0 (or_introl eq_refl)). lia.
Qed.
Lemma cut_row (orc : oracle) (a : fit_args) (s sf seen : fs) k : file_tree s -> free_number a s -> run (fit_zpoly orc a) s = (Ok tt, sf) ->
  glimpse (snd (steps k (fit_zpoly orc a) s)) sf seen -> forall d n r, fst (run (table_row d n) seen) = Ok r -> fst (run (table_row d n) sf) = Ok r.
Proof.
  intros W F R G d n r H. unfold table_row in *. rewrite run_read in H. destruct (seen (d ++ ["pyoof_info.yml"])) as [[|di]|] eqn:E1; try discriminate H.
  rewrite run_read in H. destruct (seen (d ++ ["phase_n" ^^ dec n ^^ ".csv"])) as [[|dp]|] eqn:E2; try discriminate H.
  rewrite run_lift_bind in H. destruct (read_phase dp) as [m|] eqn:E3; [|discriminate H].
  rewrite run_lift_bind in H. destruct (rms_circ m) as [x|] eqn:E4; [|discriminate H].
  rewrite run_lift_bind in H. destruct (e_rs_circ (snd x)) as [y|] eqn:E5; [|discriminate H].
  rewrite run_read in H. destruct (seen (d ++ [fitpar_name n])) as [[|dt]|] eqn:E6; try discriminate H.
  destruct dt; try discriminate H. cbn [bindP] in H. destruct di; try discriminate H.
  assert (N2 : dp <> Partial) by (intros ->; discriminate E3).
  pose proof (no_beginning orc a s sf seen k W F R G d n "pyoof_info.yml" _ i dp (Info i) E1 (or_intror (conj eq_refl (or_intror (or_introl eq_refl)))) E2 N2 E1 ltac:(discriminate)) as S1.
  pose proof (no_beginning orc a s sf seen k W F R G d n _ _ i dp (Params rows) E1 (or_intror (conj eq_refl (or_introl eq_refl))) E2 N2 E6 ltac:(discriminate)) as S6.
  pose proof (cut_phase orc a s sf seen k W F R G d n i dp m x E1 E2 E3 E4) as S2.
  rewrite run_read, S1, run_read, S2, run_lift_bind, E3, run_lift_bind, E4, run_lift_bind, E5, run_read.
  change (d ++ [fitpar_name n]) with (d ++ ["fitpar_n" ^^ dec n ^^ ".csv"]). rewrite S6. cbn [bindP].
  cbv zeta in H |- *. cbn [bindP] in H. rewrite run_lift_bind in H |- *. destruct (py_get _ 0); [|discriminate H]. rewrite run_lift_bind in H |- *. destruct (py_get _ 1); [|discriminate H].
  rewrite run_lift_bind in H |- *. destruct (py_get _ 2); [|discriminate H]. destruct (Nat.eqb _ 13); [exact H|discriminate H].
Qed.
Lemma cut_table (orc : oracle) (a : fit_args) (s sf seen : fs) k : file_tree s -> free_number a s -> run (fit_zpoly orc a) s = (Ok tt, sf) ->
  glimpse (snd (steps k (fit_zpoly orc a) s)) sf seen -> forall isot dirs n x, fst (run (table_pyoof_out isot dirs n) seen) = Ok x -> fst (run (table_pyoof_out isot dirs n) sf) = Ok x.
Proof.
  intros W F R G isot dirs n x H.
  assert (X : forall ds rs, fst (run (table_rows ds n) seen) = Ok rs -> fst (run (table_rows ds n) sf) = Ok rs).
  { induction ds as [|d t IH]; intros rs E; [exact E|]. cbn [table_rows] in *. rewrite run_bind in E |- *.
    pose proof (cut_row orc a s sf seen k W F R G d n) as C. destruct (row_run seen d n) as [y Ey]. destruct (row_run sf d n) as [z Ez]. rewrite Ey in E, C. rewrite Ez in C |- *. cbn [fst] in C.
    destruct y as [r|e]; [|discriminate E]. rewrite (C r eq_refl). rewrite run_bind in E |- *. destruct (rows_run seen t n) as [u Eu]. destruct (rows_run sf t n) as [v Ev]. rewrite Eu in E, IH. rewrite Ev in IH |- *.
    cbn [fst] in IH. destruct u as [l|e]; [|discriminate E]. rewrite (IH l eq_refl). exact E. }
  unfold table_pyoof_out in *. rewrite run_bind in H |- *. specialize (X dirs). destruct (rows_run seen dirs n) as [y Ey]. destruct (rows_run sf dirs n) as [z Ez]. rewrite Ey in H, X. rewrite Ez in X |- *. cbn [fst] in X.
  destruct y as [rs|e]; [|discriminate H]. rewrite (X rs eq_refl). destruct (forallb _ rs); exact H.
Qed.
