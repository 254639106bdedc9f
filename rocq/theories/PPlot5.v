(** Proofs about plot_fit_path after a fit. *)
From Coq Require Import String Ascii List Sorted Lia Lra.
From Verif Require Import PyBase PyLib Num MZernike MMath MAperture MRad MCore MFs MAct MAux MOut MPlot SZernike SMath SAct SOut SFit SPlot
  PNorm PAct PPhase PRad PFs PFit PFit4 PFit5 PFit6 PFit7 PFit9 PConc2 PAper PTab PPlot PPlot2 PPlot3 PPlot4.
From Coquelicot Require Import Complex.
Import ListNotations.
Open Scope R_scope.
Open Scope string_scope.
Open Scope list_scope.

(** ** np_delete of the positions *)
Lemma delete_at_map {A B} (f : A -> B) ex l : forall off, delete_at off ex (map f l) = map f (delete_at off ex l).
Proof. induction l as [|x l IH]; intros off; [reflexivity|]. cbn. rewrite IH. destruct (existsb _ _); reflexivity. Qed.
Lemma delete_at_seq ex m : forall off, delete_at off ex (seq off m) = filter (fun q => negb (existsb (Nat.eqb q) ex)) (seq off m).
Proof. induction m as [|m IH]; intros off; [reflexivity|]. cbn. rewrite IH. destruct (existsb _ _); reflexivity. Qed.
Lemma filter_sorted (f : nat -> bool) l : StronglySorted lt l -> StronglySorted lt (filter f l).
Proof.
  induction 1 as [|x l H IH F]; cbn; [constructor|]. destruct (f x); [|exact IH]. constructor; [exact IH|].
  rewrite Forall_forall in *. intros y Hy. apply filter_In in Hy. apply F, Hy.
Qed.
Lemma seq_sorted m : forall off, StronglySorted lt (seq off m).
Proof. induction m as [|m IH]; intros off; cbn; constructor; [apply IH|]. apply Forall_forall. intros y Hy. apply in_seq in Hy. lia. Qed.
Lemma mapM_in {A B} (f : A -> res B) l ys : mapM f l = Ok ys -> forall y, In y ys <-> exists x, In x l /\ f x = Ok y.
Proof.
  revert ys. induction l as [|x l IH]; intros ys E y; cbn in E.
  - inversion E. split; [intros []|intros (z & [] & _)].
  - apply bind_ok in E. destruct E as (b & Eb & E). apply bind_ok in E. destruct E as (bs & Es & E). inversion E; subst ys. cbn [In]. rewrite (IH bs Es y). split.
    + intros [<-|(z & Hz & Ez)]; [exists x; auto|exists z; auto].
    + intros (z & [<-|Hz] & Ez); [left; congruence|right; exists z; auto].
Qed.
Lemma np_index_ok n i q : np_index n i = Ok q <-> (q < n)%nat /\ (i = Z.of_nat q \/ i = (Z.of_nat q - Z.of_nat n)%Z).
Proof.
  unfold np_index. destruct (Z.leb_spec 0 i), (Z.ltb_spec i (Z.of_nat n)); cbn [andb];
  try (destruct (Z.leb_spec (- Z.of_nat n) i), (Z.ltb_spec i 0); cbn [andb]); split; intros E; try discriminate; try (inversion E; subst; lia); try (f_equal; lia); try (exfalso; lia).
Qed.
Lemma deleted_positions L ex idx : np_delete (map INR (seq 0 L)) ex = Ok idx -> exists p, idx = map INR p /\ fitted_positions L ex p.
Proof.
  intros E. unfold np_delete in E. apply bind_ok in E. destruct E as (exn & Ee & E). rewrite map_length, seq_length in Ee. inversion E; subst idx.
  rewrite delete_at_map, delete_at_seq. eexists. split; [reflexivity|]. split; [apply filter_sorted, seq_sorted|].
  intros q. rewrite filter_In, in_seq, negb_true_iff. pose proof (mapM_in _ _ _ Ee q) as M.
  assert (X : existsb (Nat.eqb q) exn = false <-> ~ In q exn).
  { rewrite <- not_true_iff_false, existsb_exists. split; intros H C; apply H; [exists q; split; [exact C|apply Nat.eqb_refl]|]. destruct C as (z & Hz & Ez). apply Nat.eqb_eq in Ez. now subst. }
  rewrite X, M. split.
  - intros ([_ Hq] & N). split; [lia|]. split; intros C; apply N; eexists; (split; [exact C|]); apply np_index_ok; split; try lia; auto.
  - intros (Hq & N1 & N2). split; [lia|]. intros (z & Hz & Ez). apply np_index_ok in Ez. destruct Ez as (_ & [-> | ->]); contradiction.
Qed.

(** ** The directory a run leaves *)
Lemma fit_leaves_plain orc a s s' j x nd : wf s -> run (fit_zpoly orc a) s = (Ok tt, s') -> free_number a s ->
  s (numbered (fit_dir a) (fa_name a) j) = None -> s' (numbered (fit_dir a) (fa_name a) j ++ [x]) = Some nd ->
  plain_dir s' (numbered (fit_dir a) (fa_name a) j).
Proof.
  intros W E F Nj Hx. destruct (fit_files orc a s s' W E F) as (j0 & _ & H). cbv zeta in H. destruct H as (N0 & _ & Hdoc & Hab & Hpl & Hun).
  set (d := numbered (fit_dir a) (fa_name a) j) in *. set (d0 := numbered (fit_dir a) (fa_name a) j0) in *.
  assert (NB : forall p r, s p = None -> s (p ++ r) = None).
  { intros p r Hp. revert r. apply (rev_ind (fun r => s (p ++ r) = None)); [now rewrite app_nil_r|]. intros c r IH. rewrite app_assoc.
    destruct (s ((p ++ r) ++ [c])) eqn:Ec; [|reflexivity]. exfalso. assert (Z : s ((p ++ r) ++ [c]) <> None) by congruence. apply (proj2 W) in Z. congruence. }
  assert (LL : length d = length d0) by (unfold d, d0, numbered; rewrite !app_length; reflexivity).
  assert (HE : forall f, d ++ [x] = d0 ++ f -> d = d0).
  { intros f X. apply (f_equal (firstn (length d))) in X. rewrite firstn_app, Nat.sub_diag, firstn_all, app_nil_r in X. rewrite LL, firstn_app, Nat.sub_diag, firstn_all, app_nil_r in X. exact X. }
  assert (ED : d = d0).
  { destruct (list_eq_dec string_dec d d0) as [X|X]; [exact X|]. exfalso. rewrite Hun in Hx.
    - rewrite (NB d [x] Nj) in Hx. discriminate.
    - intros [t Ht]. apply (f_equal (@length _)) in Ht. rewrite !app_length in Ht. cbn in Ht. lia.
    - intros _ _ Y. apply X, (HE _ Y).
    - intros f _ Y. apply X, (HE _ Y). }
  rewrite ED in *. clear HE LL Nj. split; [apply Hab; exists []; now rewrite app_nil_r|].
  assert (NA : forall r, r <> [] -> ~ above (d0 ++ r) d0).
  { intros r Hr [t Ht]. apply (f_equal (@length _)) in Ht. rewrite !app_length in Ht. destruct r; [contradiction|]. cbn in Ht. lia. }
  assert (OT : forall r, r <> [] -> (fa_make_plots a = true -> (1 <= fa_order_max a)%nat -> r <> ["plots"]) -> s' (d0 ++ r) = None \/ exists dc, s' (d0 ++ r) = Some (File dc)).
  { intros r Hr Hp. destruct (in_dec (list_eq_dec string_dec) r (documented (fa_order_max a) (fa_make_plots a))) as [Hi|Hi].
    - right. destruct (Hdoc r Hi) as (dc & _ & Hdc). exists dc. exact Hdc.
    - left. rewrite Hun; [apply NB, N0|apply NA, Hr| |].
      + intros P1 P2 X. apply app_inv_head in X. exact (Hp P1 P2 X).
      + intros f Hf X. apply app_inv_head in X. subst f. contradiction. }
  split.
  - destruct (fa_make_plots a) eqn:P1; [destruct (le_lt_dec 1 (fa_order_max a)) as [P2|P2]|].
    + right. apply Hpl; auto.
    + destruct (OT ["plots"]) as [Z|(dc & Z)]; [discriminate|intros; lia|left; exact Z|].
      exfalso. assert (O0 : fa_order_max a = 0%nat) by lia. rewrite Hun in Z; [rewrite NB in Z by exact N0; discriminate|apply NA; discriminate|intros; lia|rewrite O0; intros f []].
    + left. rewrite Hun; [apply NB, N0|apply NA; discriminate|intros; discriminate|]. intros f Hf X. apply app_inv_head in X. subst f.
      apply documented_in in Hf. destruct Hf as [Hf _]. apply Hf. reflexivity.
  - intros r Hr Hp Hd. destruct (OT r Hr (fun _ _ => Hp)) as [Z|(dc & Z)]; congruence.
Qed.

Lemma matrix2_fins (m : list (list R)) : matrix2 m -> matrix2 (map (map Fin) m).
Proof. intros [X Y]. split; [now rewrite map_length|]. destruct m; [exact Y|]. cbn in *. now rewrite map_length. Qed.
Lemma matrix2_head (p : list nat) (m : list (list R)) : (2 <= length p)%nat -> m <> [] -> matrix2 (map (map Fin) (map INR p :: m)).
Proof. intros H N. split; [destruct m; [contradiction|cbn; lia]|]. cbn. rewrite !map_length. exact H. Qed.
Lemma head_fins (p : list nat) (m : list (list R)) : map (map Fin) (map INR p :: m) = map Fin (map INR p) :: fins m.
Proof. reflexivity. Qed.

Section After.
Variables (gd : list R -> list R -> list num -> list R -> list R -> list (list num)) (pt : printers) (strict : bool).
Variables (orc : oracle) (a : fit_args) (s s' : fs) (c : config).
Hypotheses (W : file_tree s) (E : run (fit_zpoly orc a) s = (Ok tt, s')) (F : free_number a s) (CF : configured a s c).

Lemma stored_after : exists j snrs, (j <= 100)%nat /\ s (numbered (fit_dir a) (fa_name a) j) = None /\ snr_values orc a = Ok snrs /\
  let d := numbered (fit_dir a) (fa_name a) j in
  forall n, (1 <= n <= fa_order_max a)%nat -> exists rows out i r cov cor p,
    length rows = (5 + coeffs n)%nat /\ answered orc a c n (map parinit rows) out /\ describes i a snrs /\
    concat r = lo_fun out /\ length r = 3%nat /\ (forall x, In x r -> (3 * length x = length (lo_fun out))%nat) /\
    fitted_positions (length rows) (cf_excluded c) p /\ or_comat orc (lo_fun out) (lo_jac out) (length p) = Ok (cov, cor) /\
    plain_dir s' d /\
    stored_run s' d n rows i (fa_beam a) (fins r) (fa_u a) (fa_v a) (fins (map INR p :: cov)) (fins (map INR p :: cor)).
Proof.
  destruct (stored_together orc a s s' c W E F CF) as (j & snrs & Hj & Hn & Hs & H). cbv zeta in H. destruct H as (H1 & H2).
  exists j, snrs. split; [exact Hj|]. split; [exact Hn|]. split; [exact Hs|]. cbv zeta. intros n Hn1.
  destruct (H1 ltac:(lia)) as (B1 & B2 & B3 & i & B4 & B5).
  destruct (H2 n Hn1) as (rows & out & r & xy & ph & cov & cor & idx & A1 & A2 & _ & A3 & _ & A4 & A5 & A6 & A7 & _ & _ & _ & _ & A8 & A9 & A10 & A11).
  destruct (deleted_positions _ _ _ A8) as (p & -> & Hp).
  exists rows, out, i, r, cov, cor, p. split; [exact A2|]. split; [exact A3|]. split; [exact B5|]. split; [exact A5|]. split; [exact A6|]. split; [exact A7|].
  split; [exact Hp|]. split; [rewrite map_length in A9; exact A9|]. split; [exact (fit_leaves_plain orc a s s' j _ _ W E F Hn A1)|].
  unfold stored_run. cbv zeta. split; [exact A1|]. split; [exact B4|]. split; [eexists; exact B1|]. split; [eexists; exact A4|]. split; [eexists; exact B2|].
  split; [eexists; exact B3|]. split; [eexists; exact A10|eexists; exact A11].
Qed.

Lemma draw_after illum tel g plim save : exists j snrs, (j <= 100)%nat /\ s (numbered (fit_dir a) (fa_name a) j) = None /\ snr_values orc a = Ok snrs /\
  let d := numbered (fit_dir a) (fa_name a) j in
  forall n, (1 <= n <= fa_order_max a)%nat -> exists rows out i r cov cor p,
    fitpar_rows s' d n rows /\ answered orc a c n (map parinit rows) out /\ describes i a snrs /\
    concat r = lo_fun out /\ length r = 3%nat /\ (forall x, In x r -> (3 * length x = length (lo_fun out))%nat) /\
    fitted_positions (length rows) (cf_excluded c) p /\ or_comat orc (lo_fun out) (lo_jac out) (length p) = Ok (cov, cor) /\
    let drawn := run (draw_fit_path gd pt strict d n illum tel g plim save) s' in
    (forall q, ~ below (d ++ ["plots"]) q -> snd drawn q = s' q) /\
    ((length p < 2)%nat -> exists e, fst drawn = Err e) /\
    (matrix2 (fa_beam a) -> matrix2 r -> matrix2 (fa_u a) -> matrix2 (fa_v a) -> (2 <= length p)%nat -> cov <> [] -> cor <> [] ->
     (forall figs, fst drawn = Ok figs <->
        figures_of gd pt strict illum tel g plim n (map parfit rows) i (fa_beam a) (fins r) (fa_u a) (fa_v a) (fins (map INR p :: cov)) (fins (map INR p :: cor)) figs) /\
     (forall figs, fst drawn = Ok figs -> save = true -> forall f, In f (pdf_names n) -> snd drawn (d ++ ["plots"; f]) = Some (File Pdf))).
Proof.
  destruct stored_after as (j & snrs & Hj & Hn & Hs & H). cbv zeta in H. exists j, snrs. split; [exact Hj|]. split; [exact Hn|]. split; [exact Hs|]. cbv zeta.
  intros n Hn1. destruct (H n Hn1) as (rows & out & i & r & cov & cor & p & A1 & A2 & A3 & A4 & A5 & A6 & A7 & A8 & A9 & A10).
  exists rows, out, i, r, cov, cor, p. split; [exact (proj1 A10)|]. split; [exact A2|]. split; [exact A3|]. split; [exact A4|]. split; [exact A5|]. split; [exact A6|]. split; [exact A7|].
  split; [exact A8|]. split; [|split].
  - intros q Hq. rewrite (draw_start gd pt strict _ n illum tel g plim save s' A9).
    apply (draw_confined gd pt strict _ n illum tel g plim save s' q A9 Hq).
  - intros Hp. destruct (draw_single gd pt strict _ n illum tel g plim save s' _ _ _ _ _ _ _ _ A9 A10) as (e & Ee).
    + left. intros [_ X]. cbn in X. rewrite !map_length in X. lia.
    + exists e. rewrite Ee. reflexivity.
  - intros M1 M2 M3 M4 Hp N1 N2.
    destruct (draw_spec gd pt strict _ n illum tel g plim save s' _ _ _ _ _ _ _ _ A9 A10 M1 (matrix2_fins _ M2) M3 M4 (matrix2_head _ _ Hp N1) (matrix2_head _ _ Hp N2)) as (S1 & S2 & _).
    split; [exact S1|]. intros figs Ef Sv f Hf. rewrite (S2 figs Ef). destruct (path_eq_dec _ _) as [X|_].
    { exfalso. apply app_inv_head in X. discriminate X. }
    destruct (in_dec _ _ _) as [_|X]; [reflexivity|]. exfalso. apply X. rewrite Sv. apply in_map_iff. exists f. auto.
Qed.
End After.
