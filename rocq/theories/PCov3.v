(** The amplitude is not determined by the maps; concrete cases for C97. *)
From Coq Require Import String List ZArith Lia Lra Sorted.
From Verif Require Import PyBase PyLib Sums Num MMath MAperture MCore MFs MOut MCoMat SOut SFit SMat SBest SSim SRecover SCov PResid PParams PFs PFit PFit6 PFit7 PDemo PEndDemo PBest PBest2 PRecover PCov PCov2 PRecover3.
Import ListNotations.
Open Scope R_scope.
Open Scope string_scope.
Open Scope list_scope.

Lemma amplitude_free a c n p r e d : valid_config c -> amplitude_fitted c -> (1 <= n)%nat -> fa_illum a = illum_parabolic -> 0 < tel_pr (fa_tel a) ->
  allowed c n p -> nth 0 p 0 <> 0 -> explained a p r -> sum_sq r <= e -> determined a c n p e d ->
  forall z, z <> 0 -> nth 0 (cf_bound_min c) 0 <= z <= nth 0 (cf_bound_max c) 0 -> Rabs (z - nth 0 p 0) <= d.
Proof.
  intros V (A0 & A1 & A2) Hn HI Hpr AL Hp EX SQ D z Hz Bz. pose proof V as (V1 & V2 & V3 & V4 & _). pose proof (coeffs_3 n Hn) as N3. destruct AL as [Lp AL].
  assert (Q : 0 < nth 2 p 0).
  { destruct (AL 2%nat ltac:(lia)) as [B1 B2]. destruct (in_dec Z.eq_dec 2%Z (cf_excluded c)) as [I|I]; [rewrite (B1 I); apply A1, I|]. specialize (B2 I). specialize (A2 I). rewrite (nth_indep _ (-5) 0) in B2 by lia. lra. }
  destruct p as [|w0 [|w1 [|w2 [|w3 [|w4 K]]]]]; cbn [length] in Lp; try lia. cbn [nth] in Hp, Q |- *.
  assert (N : near d (z :: w1 :: w2 :: w3 :: w4 :: K) (w0 :: w1 :: w2 :: w3 :: w4 :: K)).
  { apply (D _ r); [|unfold explained in *; rewrite HI in *; rewrite <- EX; apply residual_amplitude; assumption|exact SQ]. split; [cbn [length]; lia|]. intros [|i] Hi; [|exact (AL (S i) Hi)].
    cbn [nth]. split; [intros I; destruct (A0 I)|]. intros _. rewrite (nth_indep (cf_bound_min c) (-5) 0), (nth_indep (cf_bound_max c) 5 0) by lia. exact Bz. }
  inversion N; subst. assumption.
Qed.

(** ** The default configuration *)
Definition amp_oracle : oracle := careful demo_oracle [1; 1 / 10; 1 / 10] (1 / 10).
Lemma amp_feasible : feasible default_config 1 [1; 1 / 10; 1 / 10].
Proof. exists [0; -5; -5], [10; 5; 5]. split; [reflexivity|]. split; [reflexivity|]. split; [reflexivity|]. split; [reflexivity|]. intros i Hi. cbn [length] in Hi. destruct i as [|[|[|i]]]; [| | |lia]; cbn [nth]; lra. Qed.
Lemma amp_default : amplitude_fitted default_config.
Proof. split; [cbn; intuition discriminate|]. split; intros _; cbn; lra. Qed.
Lemma amp_wide r e : determined (best_args r) default_config 1 [1; - (29 / 2); 7 / 5; 0; 0; 0; 0; 0] e 10.
Proof.
  intros q r0 (L & A) _ _. cbn in L. destruct q as [|q0 [|q1 [|q2 [|q3 [|q4 [|q5 [|q6 [|q7 [|]]]]]]]]]; cbn [length] in L; try lia. clear L. unfold near.
  assert (X0 := A 0%nat ltac:(cbn; lia)). assert (X1 := A 1%nat ltac:(cbn; lia)). assert (X2 := A 2%nat ltac:(cbn; lia)). assert (X3 := A 3%nat ltac:(cbn; lia)).
  assert (X4 := A 4%nat ltac:(cbn; lia)). assert (X5 := A 5%nat ltac:(cbn; lia)). assert (X6 := A 6%nat ltac:(cbn; lia)). assert (X7 := A 7%nat ltac:(cbn; lia)). clear A. cbn in X0, X1, X2, X3, X4, X5, X6, X7.
  destruct X0 as [_ X0], X1 as [X1 _], X2 as [X2 _], X3 as [X3 _], X4 as [X4 _], X5 as [X5 _], X6 as [_ X6], X7 as [_ X7].
  specialize (X0 ltac:(intuition discriminate)). specialize (X6 ltac:(intuition discriminate)). specialize (X7 ltac:(intuition discriminate)).
  rewrite X1, X2, X3, X4, X5 by intuition. repeat (apply Forall2_cons; [unfold Rabs; destruct (Rcase_abs _); lra|]). apply Forall2_nil.
Qed.
Lemma amp_answers : least_squares_answers amp_oracle (best_args 1) default_config.
Proof.
  intros n start out Hn L A. cbn [fa_order_max best_args] in Hn. assert (n = 1%nat) as -> by lia. apply careful_answer in A. destruct A as (r & M & ->). cbn [lo_x lo_fun lo_jac].
  destruct (misfit_total 1 1 _ (le_n 1) amp_feasible) as (_ & r' & M' & L'). assert (r' = r) as -> by congruence. split; [exact amp_feasible|]. split; [exact M|].
  split. { split; cbn [lo_x lo_fun lo_jac]; [apply quotients_matrix|rewrite L'; cbn; lia]. }
  right. apply careful_differences; [exact M|lra|]. intros [|[|[|[|j]]]]; cbn; lra.
Qed.
Lemma amp_answered : exists out, answered amp_oracle (best_args 1) default_config 1 (cf_init default_config) out.
Proof.
  destruct (misfit_total 1 1 _ (le_n 1) amp_feasible) as (_ & r & M & _). eexists. eexists _, _, _. split; [reflexivity|]. split; [reflexivity|]. split; [reflexivity|]. cbn [or_lsq amp_oracle careful].
  match goal with |- (if ?b then _ else _) = _ => change b with true end. cbv iota. rewrite M. reflexivity.
Qed.
Lemma amp_shape out : answered amp_oracle (best_args 1) default_config 1 (cf_init default_config) out -> (length (lo_fun out) mod 3 = 0)%nat /\ nth 0 (lo_x out) 0 <> 0.
Proof.
  intros A. apply careful_answer in A. destruct A as (r & M & ->). cbn [lo_x lo_fun nth]. destruct (misfit_total 1 1 _ (le_n 1) amp_feasible) as (_ & r' & M' & L'). assert (r' = r) as -> by congruence. rewrite L'. split; [reflexivity|lra].
Qed.
Lemma best_usable N : usable (fit_dir (best_args N)) demo_fs.
Proof. split; [reflexivity|right; reflexivity]. Qed.
Lemma best_maps N : three_maps (best_args N).
Proof. repeat split; try (cbn; lia); destruct i as [|[|[|i]]]; cbn; discriminate || lia. Qed.
Lemma best_free N : free_number (best_args N) demo_fs.
Proof. exists 0%nat; split; [lia|apply demo_numbered]. Qed.

(** ** An exact answer *)
Lemma tilt_answered t : 0 <= t <= 1 -> exists out, answered (tilt_oracle t) (tilt_args (1 / 2)) tilt_config 1 (cf_init tilt_config) out.
Proof.
  intros H. eexists. eexists _, _, _. split; [reflexivity|]. split; [reflexivity|]. split; [reflexivity|]. cbn [or_lsq tilt_oracle careful].
  match goal with |- (if ?b then _ else _) = _ => change b with true end. cbv iota. rewrite tilt_misfit by lra. reflexivity.
Qed.
Lemma tilt_hit out : answered (tilt_oracle (1 / 2)) (tilt_args (1 / 2)) tilt_config 1 (cf_init tilt_config) out ->
  (length (lo_fun out) mod 3 = 0)%nat /\ feasible tilt_config 1 (lo_x out) /\ overdetermined out /\ forall t, In t (lo_fun out) -> t = 0.
Proof.
  intros A. apply careful_answer in A. destruct A as (r & M & ->). rewrite tilt_misfit in M by lra. apply Ok_inj in M. subst r. cbn [lo_x lo_fun]. split; [reflexivity|]. split; [apply tilt_feasible; lra|].
  split. { split; cbn [lo_x lo_fun lo_jac]; [apply quotients_matrix|cbn; lia]. }
  intros t I. rewrite Rminus_diag_eq in I by reflexivity. cbn in I. intuition.
Qed.
Lemma tilt_over t n start out : 0 <= t <= 1 -> (1 <= n <= 1)%nat -> answered (tilt_oracle t) (tilt_args (1 / 2)) tilt_config n start out -> overdetermined out.
Proof.
  intros Ht Hn A. assert (n = 1%nat) as -> by lia. apply careful_answer in A. destruct A as (r & M & ->). rewrite tilt_misfit in M by lra. apply Ok_inj in M. subst r. split; cbn [lo_x lo_fun lo_jac]; [apply quotients_matrix|cbn; lia].
Qed.
