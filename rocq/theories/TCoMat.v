(** Property theorems C19, C20: pyoof.math_functions.co_matrices. *)
From Verif Require Import PyBase PyLib Sums MMath MCoMat SMat PMat PCoMat.
Open Scope R_scope.

(** C19. With degrees of freedom left, independent columns and a non-zero residual:
    the covariance is variance times the inverse of the normal matrix, symmetric and
    positive definite; the correlation is its normalised form, with ones on the
    diagonal and less than one in modulus elsewhere. *)
Theorem C19_matrices rs J n_pars m n : matrix m n J -> (0 < m)%nat -> independent_columns m n J ->
  (n_pars < length rs)%nat -> (exists k, (k < length rs)%nat /\ nth k rs 0 <> 0) ->
  exists cov corr, co_matrices rs J n_pars = Ok (cov, corr) /\ matrix n n cov /\ matrix n n corr /\
    (forall i j, (i < n)%nat -> (j < n)%nat -> Rsum n (fun k => normal_entry m J i k * at_ cov k j) = if Nat.eqb i j then variance rs n_pars else 0) /\
    (forall i j, (i < n)%nat -> (j < n)%nat -> at_ cov i j = at_ cov j i /\ at_ corr i j = at_ corr j i) /\
    (forall x, (exists i, (i < n)%nat /\ x i <> 0) -> 0 < quadratic n cov x) /\
    (forall i j, (i < n)%nat -> (j < n)%nat -> at_ corr i j = at_ cov i j / sqrt (at_ cov i i * at_ cov j j)) /\
    (forall i, (i < n)%nat -> at_ corr i i = 1) /\ (forall i j, (i < n)%nat -> (j < n)%nat -> i <> j -> Rabs (at_ corr i j) < 1).
Proof. exact (comat_ok rs J n_pars m n). Qed.
Print Assumptions C19_matrices.
(** Dependent columns and a vanishing residual raise. *)
Theorem C19_singular rs J n_pars m n : matrix m n J -> (0 < m)%nat -> (n_pars < length rs)%nat -> ~ independent_columns m n J ->
  co_matrices rs J n_pars = Err LinAlgError.
Proof. exact (comat_singular rs J n_pars m n). Qed.
Print Assumptions C19_singular.
Theorem C19_exact_fit rs J n_pars m n : matrix m n J -> (0 < m)%nat -> (0 < n)%nat -> (n_pars < length rs)%nat ->
  (forall k, (k < length rs)%nat -> nth k rs 0 = 0) -> co_matrices rs J n_pars = Err LinAlgError.
Proof. exact (comat_exact rs J n_pars m n). Qed.
Print Assumptions C19_exact_fit.
Definition J19 : list (list R) := [[1; 0]; [1; 1]; [1; 2]].
Example C19_nonvacuous : matrix 3 2 J19 /\ independent_columns 3 2 J19 /\ (exists k, (k < length [1; 0; 0])%nat /\ nth k [1; 0; 0] 0 <> 0) /\
  ~ independent_columns 3 2 [[1; 2]; [2; 4]; [0; 0]].
Proof.
  split; [split; [reflexivity|repeat constructor]|]. split; [|split].
  - intros x H. pose proof (H 0%nat ltac:(lia)) as H0. pose proof (H 1%nat ltac:(lia)) as H1. unfold at_, J19 in H0, H1. cbn [nth] in H0, H1. rewrite !Rsum_Sr in H0, H1.
    change (Rsum 0 ?f) with 0 in H0. change (Rsum 0 ?f) with 0 in H1. cbn [nth] in H0, H1. intros [|[|j]] Hj; [lra|lra|lia].
  - exists 0%nat. cbn. split; [lia|lra].
  - intros H. pose proof (H (fun j => 2 - 3 * INR j)) as E. assert (Z : 2 - 3 * INR 0 = 0).
    { apply E; [|lia]. intros k Hk. rewrite !Rsum_Sr. change (Rsum 0 ?f) with 0. unfold at_. do 3 (destruct k as [|k]; [cbn [nth INR]; lra|]). lia. }
    cbn [INR] in Z. lra.
Qed.

(** C20. Rescaling the parameters or the residual. *)
Theorem C20_columns rs J n_pars m n s cov corr : matrix m n J -> (0 < m)%nat -> independent_columns m n J ->
  (n_pars < length rs)%nat -> (exists k, (k < length rs)%nat /\ nth k rs 0 <> 0) -> (forall j, (j < n)%nat -> 0 < s j) -> co_matrices rs J n_pars = Ok (cov, corr) ->
  exists cov', co_matrices rs (scale_columns s J) n_pars = Ok (cov', corr) /\ matrix n n cov' /\
    forall i j, (i < n)%nat -> (j < n)%nat -> at_ cov' i j = at_ cov i j / (s i * s j).
Proof. exact (comat_columns rs J n_pars m n s cov corr). Qed.
Print Assumptions C20_columns.
Theorem C20_residual rs J n_pars m n c cov corr : matrix m n J -> (0 < m)%nat -> independent_columns m n J ->
  (n_pars < length rs)%nat -> (exists k, (k < length rs)%nat /\ nth k rs 0 <> 0) -> c <> 0 -> co_matrices rs J n_pars = Ok (cov, corr) ->
  exists cov', co_matrices (map (Rmult c) rs) J n_pars = Ok (cov', corr) /\ matrix n n cov' /\
    forall i j, (i < n)%nat -> (j < n)%nat -> at_ cov' i j = c ^ 2 * at_ cov i j.
Proof. exact (comat_residual rs J n_pars m n c cov corr). Qed.
Print Assumptions C20_residual.
Example C20_nonvacuous : (forall j, (j < 2)%nat -> 0 < INR j + 1 / 2) /\ exists cov corr, co_matrices [1; 0; 0] J19 2 = Ok (cov, corr).
Proof.
  split; [intros j _; pose proof (pos_INR j); lra|]. destruct C19_nonvacuous as (H1 & H2 & H3 & _).
  destruct (comat_ok [1; 0; 0] J19 2 3 2 H1 ltac:(lia) H2 ltac:(cbn; lia) H3) as (cov & corr & E & _). eauto.
Qed.
