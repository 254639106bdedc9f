(** Fits of maps that some allowed parameters explain. *)
From Coq Require Import String List ZArith Lia Lra Sorted.
From Verif Require Import PyBase PyLib Num MZernike SZernike MMath MAperture MRad MCore MFs MOut MAux MSim SOut SFit SBest SAux SSim SRecover PPhase PParams PFs PFit PFit5 PFit7 PFit9 PBest.
Import ListNotations.
Open Scope R_scope.
Open Scope string_scope.
Open Scope list_scope.

Lemma within_cons x l h xs ls hs : within Rle (x :: xs) (l :: ls) (h :: hs) <-> l <= x <= h /\ within Rle xs ls hs.
Proof.
  unfold within. cbn [length]. split.
  - intros (H1 & H2 & H3). split; [exact (H3 0%nat ltac:(lia))|]. split; [lia|]. split; [lia|]. intros i Hi. exact (H3 (S i) ltac:(lia)).
  - intros (H & H1 & H2 & H3). split; [lia|]. split; [lia|]. intros [|i] Hi; [exact H|exact (H3 i ltac:(lia))].
Qed.
Lemma delete_within ex : forall v lo hi off, length lo = length v -> length hi = length v ->
  (within Rle (delete_at off ex v) (delete_at off ex lo) (delete_at off ex hi) <->
   forall i, (i < length v)%nat -> existsb (Nat.eqb (off + i)) ex = false -> nth i lo 0 <= nth i v 0 <= nth i hi 0).
Proof.
  induction v as [|x v IH]; intros [|l lo] [|h hi] off L1 L2; try discriminate.
  - cbn. split; [intros _ i Hi; lia|]. intros _. unfold within. cbn. split; [reflexivity|]. split; [reflexivity|]. intros; lia.
  - injection L1 as L1. injection L2 as L2. cbn [delete_at]. specialize (IH lo hi (S off) L1 L2). destruct (existsb (Nat.eqb off) ex) eqn:E.
    + rewrite IH. cbn [length]. split.
      * intros H [|i] Hi X; [rewrite Nat.add_0_r in X; congruence|]. rewrite Nat.add_succ_r in X. apply H; [lia|exact X].
      * intros H i Hi X. apply (H (S i)); [lia|]. rewrite Nat.add_succ_r. exact X.
    + rewrite within_cons, IH. cbn [length]. split.
      * intros [H0 H] [|i] Hi X; [exact H0|]. rewrite Nat.add_succ_r in X. apply H; [lia|exact X].
      * intros H. split; [apply (H 0%nat); [lia|rewrite Nat.add_0_r; exact E]|]. intros i Hi X. apply (H (S i)); [lia|]. rewrite Nat.add_succ_r. exact X.
Qed.
Lemma excluded_nat ex i : In (Z.of_nat i) (map Z.of_nat ex) <-> existsb (Nat.eqb i) ex = true.
Proof.
  rewrite existsb_exists, in_map_iff. split.
  - intros (e & E & H). exists e. split; [exact H|]. apply Nat.eqb_eq. lia.
  - intros (e & H & E). apply Nat.eqb_eq in E. subst e. eauto.
Qed.
Lemma bound_nth (b : list R) d k i : (i < length b + k)%nat -> nth i (b ++ repeat d k) 0 = nth i b d.
Proof.
  intros H. destruct (Nat.lt_ge_cases i (length b)) as [L|L]; [rewrite app_nth1 by exact L; apply nth_indep, L|].
  rewrite app_nth2 by exact L. rewrite (nth_indep _ 0 d) by (rewrite repeat_length; lia). rewrite nth_repeat. symmetry. apply nth_overflow, L.
Qed.
Lemma allowed_iff c n p : valid_config c -> (1 <= n)%nat -> allowed c n p <-> exists x, feasible c n x /\ params_complete (cf_fixed c) (cf_excluded c) (coeffs n) x = Ok p.
Proof.
  intros V Hn. pose proof V as (V1 & V2 & V3 & V4 & ex & EX & HS & HE). pose proof (coeffs_3 n Hn) as N3.
  set (lo := cf_bound_min c ++ repeat (-5) (coeffs n - 3)). set (hi := cf_bound_max c ++ repeat 5 (coeffs n - 3)).
  assert (Llo : length lo = (5 + coeffs n)%nat) by (unfold lo; rewrite app_length, repeat_length; lia). assert (Lhi : length hi = (5 + coeffs n)%nat) by (unfold hi; rewrite app_length, repeat_length; lia).
  assert (Dlo : np_delete lo (cf_excluded c) = Ok (delete_at 0 ex lo)) by (rewrite EX; apply np_delete_nat; intros e He; specialize (HE e He); lia).
  assert (Dhi : np_delete hi (cf_excluded c) = Ok (delete_at 0 ex hi)) by (rewrite EX; apply np_delete_nat; intros e He; specialize (HE e He); lia).
  assert (BN : forall i, (i < 5 + coeffs n)%nat -> nth i lo 0 = nth i (cf_bound_min c) (-5) /\ nth i hi 0 = nth i (cf_bound_max c) 5) by (intros i Hi; split; apply bound_nth; lia).
  assert (AL : forall q, allowed c n q <-> length q = (5 + coeffs n)%nat /\ (forall i, (i < 5 + coeffs n)%nat -> (existsb (Nat.eqb i) ex = true -> nth i q 0 = nth i (cf_fixed c) 0) /\ (existsb (Nat.eqb i) ex = false -> nth i lo 0 <= nth i q 0 <= nth i hi 0))).
  { intros q. unfold allowed. rewrite EX. split; intros [L H]; (split; [exact L|]); intros i Hi; destruct (H i Hi) as [H1 H2]; destruct (BN i Hi) as [B1 B2]; [rewrite B1, B2|rewrite B1, B2 in H2]; split.
    - intros E. apply H1, excluded_nat, E.
    - intros E. apply H2. rewrite excluded_nat, E. discriminate.
    - rewrite excluded_nat. exact H1.
    - rewrite excluded_nat, Bool.not_true_iff_false. exact H2. }
  rewrite AL. split.
  - intros [L H]. destruct (params_round_trip (cf_fixed c) ex (coeffs n) p V2 HS HE N3 L) as (x & w & D & _ & C & Lw & W). exists x.
    rewrite np_delete_nat in D by (intros e He; specialize (HE e He); lia). apply Ok_inj in D. split.
    + exists (delete_at 0 ex lo), (delete_at 0 ex hi). split; [exact Dlo|]. split; [exact Dhi|]. rewrite <- D. apply delete_within; [lia|lia|]. intros i Hi E. rewrite L in Hi. apply (H i Hi), E.
    + rewrite EX, C. f_equal. apply (nth_ext _ _ 0 0); [lia|]. intros i Hi. rewrite W by lia. destruct (existsb (Nat.eqb i) ex) eqn:E; [|reflexivity]. symmetry. apply (H i); [lia|exact E].
  - intros (x & F & C). pose proof (feasible_shape c n x ex V Hn EX HS HE F) as Lx. destruct F as (lo' & hi' & D1 & D2 & WI). fold lo in D1. fold hi in D2. rewrite Dlo in D1. rewrite Dhi in D2. apply Ok_inj in D1, D2. subst lo' hi'.
    destruct (undelete ex 0 x HS) as (v & Lv & Dv); [intros e He; specialize (HE e He); lia|]. rewrite Lx in Lv.
    destruct (params_round_trip (cf_fixed c) ex (coeffs n) v V2 HS HE N3 Lv) as (x' & w & D & _ & C' & Lw & W).
    rewrite np_delete_nat in D by (intros e He; specialize (HE e He); lia). apply Ok_inj in D. rewrite Dv in D. subst x'. rewrite EX, C' in C. apply Ok_inj in C. subst w.
    split; [exact Lw|]. intros i Hi. rewrite (W i Hi). rewrite <- Dv in WI. rewrite delete_within in WI by lia. split; intros E; rewrite E; [reflexivity|]. apply WI; [lia|exact E].
Qed.
Lemma allowed_pad (a : fit_args) c n k p : valid_config c -> (1 <= n)%nat -> allowed c n p -> allowed c (n + k) (p ++ repeat 0 (coeffs (n + k) - coeffs n)).
Proof.
  intros V Hn A. pose proof V as (V1 & V2 & V3 & V4 & ex & EX & HS & HE). apply allowed_iff in A; auto. destruct A as (x & F & C). apply allowed_iff; [exact V|lia|].
  destruct (nested a c n k x V Hn F) as [F' _].
  exists (x ++ repeat 0 (coeffs (n + k) - coeffs n)). split; [exact F'|]. rewrite EX in *. pose proof (feasible_shape c n x ex V Hn EX HS HE F) as Lx. pose proof (coeffs_le n k).
  apply (complete_pad (cf_fixed c) ex n (n + k) (coeffs (n + k) - coeffs n) x p V2 HS HE Hn Lx); [lia|exact C].
Qed.
Lemma explained_pad a n k p r : length p = (5 + coeffs n)%nat -> explained a p r -> explained a (p ++ repeat 0 (coeffs (n + k) - coeffs n)) r.
Proof. intros L E. unfold explained in *. pose proof (coeffs_le n k). rewrite (true_pad _ _ p _ _ _ _ _ _ _ _ n (n + k)); [exact E|exact L|lia]. Qed.

Section recover.
Variables (orc : oracle) (a : fit_args) (s s' : fs) (c : config) (m : nat) (e : R).
Hypothesis Hwf : wf s.
Hypothesis Hrun : run (fit_zpoly orc a) s = (Ok tt, s').
Hypothesis Hfree : free_number a s.
Hypothesis Hconf : configured a s c.
Hypothesis Hval : valid_config c.
Hypothesis Hm : (1 <= m)%nat.
Hypothesis Hbest : best_from orc a c m e.

Lemma best_bounds p r0 : allowed c m p -> explained a p r0 ->
  exists j, (j <= 100)%nat /\ s (numbered (fit_dir a) (fa_name a) j) = None /\
  forall n, (m <= n <= fa_order_max a)%nat -> exists rows r,
    fitpar_rows s' (numbered (fit_dir a) (fa_name a) j) n rows /\
    csv_file s' (numbered (fit_dir a) (fa_name a) j) ("res_n" ^^ dec n ^^ ".csv") ("Residual " ^^ fa_name a) (A2 (map (map Fin) r)) /\
    allowed c n (map parfit rows) /\ explained a (map parfit rows) (concat r) /\ sum_sq (concat r) <= sum_sq r0 + e.
Proof.
  intros A E. destruct (stored_together orc a s s' c Hwf Hrun Hfree Hconf) as (j & snrs & Hj & Hn & _ & _ & H). exists j. split; [exact Hj|]. split; [exact Hn|].
  intros n Hn1. destruct (H n ltac:(lia)) as (rows & out & r & xy & ph & cov & cor & idx & G1 & G2 & G3 & G4 & G5 & G6 & G7 & _). exists rows, r. split; [exact G1|]. split; [exact G6|].
  destruct (Hbest n (map parinit rows) out Hn1) as (O1 & O2 & O3); [rewrite map_length; exact G2|exact G4|]. split; [|split].
  - apply allowed_iff; [exact Hval|lia|]. eauto.
  - rewrite G7. unfold explained. unfold misfit, residual in O2. rewrite G5 in O2. exact O2.
  - rewrite G7. pose proof (allowed_pad a c m (n - m) p Hval Hm A) as A'. pose proof (explained_pad a m (n - m) p r0 (proj1 A) E) as E'. replace (m + (n - m))%nat with n in A', E' by lia.
    apply allowed_iff in A'; [|exact Hval|lia]. destruct A' as (x & F & C). apply (O3 x); [exact F|]. unfold misfit, residual. rewrite C. exact E'.
Qed.
End recover.
