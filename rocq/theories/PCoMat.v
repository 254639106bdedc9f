(** Properties of co_matrices. *)
From Verif Require Import PyBase PyLib Sums MMath MCoMat SMat PMat.
Open Scope R_scope.

Lemma ncols_matrix m n J : matrix m n J -> (0 < m)%nat -> ncols J = n.
Proof. intros [L F] H. destruct J as [|r J]; [cbn in L; lia|]. inversion F; assumption. Qed.
Lemma gram_matrix m n J : matrix m n J -> (0 < m)%nat -> matrix n n (gram J) /\ forall i j, (i < n)%nat -> (j < n)%nat -> at_ (gram J) i j = normal_entry m J i j.
Proof.
  intros HJ Hm. unfold gram. rewrite (ncols_matrix m n J HJ Hm). split; [apply array_matrix|]. intros i j Hi Hj. rewrite array_at by assumption. rewrite py_sum_seq. destruct HJ as [-> _]. reflexivity.
Qed.
Lemma normal_sym m J i j : normal_entry m J i j = normal_entry m J j i.
Proof. apply Rsum_ext. intros; ring. Qed.
Lemma normal_apply m n J x i : Rsum n (fun j => normal_entry m J i j * x j) = Rsum m (fun k => at_ J k i * Rsum n (fun j => at_ J k j * x j)).
Proof.
  unfold normal_entry. transitivity (Rsum n (fun j => Rsum m (fun k => at_ J k i * (at_ J k j * x j)))).
  - apply Rsum_ext. intros j _. rewrite <- Rsum_scal_r. apply Rsum_ext. intros; ring.
  - rewrite Rsum_swap. apply Rsum_ext. intros; apply Rsum_scal.
Qed.
Lemma normal_square m n J x : Rsum n (fun i => x i * Rsum n (fun j => normal_entry m J i j * x j)) = Rsum m (fun k => Rsum n (fun j => at_ J k j * x j) ^ 2).
Proof.
  transitivity (Rsum n (fun i => Rsum m (fun k => at_ J k i * x i * Rsum n (fun j => at_ J k j * x j)))).
  - apply Rsum_ext. intros i _. rewrite normal_apply, <- Rsum_scal. apply Rsum_ext. intros; ring.
  - rewrite Rsum_swap. apply Rsum_ext. intros k _. rewrite Rsum_scal_r. ring.
Qed.
Lemma squares_zero m f : Rsum m (fun k => f k ^ 2) = 0 -> forall k, (k < m)%nat -> f k = 0.
Proof.
  intros H k Hk. assert (P := Rsum_ge_term m k (fun k => f k ^ 2) (fun i _ => pow2_ge_0 (f i)) Hk). cbn beta in P. rewrite H in P.
  assert (f k ^ 2 = 0) by (pose proof (pow2_ge_0 (f k)); lra). nra.
Qed.
Lemma kernel_iff m n J x : (forall i, (i < n)%nat -> Rsum n (fun j => normal_entry m J i j * x j) = 0) <-> forall k, (k < m)%nat -> Rsum n (fun j => at_ J k j * x j) = 0.
Proof.
  split; intros H.
  - apply (squares_zero m (fun k => Rsum n (fun j => at_ J k j * x j))). rewrite <- normal_square. apply Rsum_0. intros i Hi. rewrite H by exact Hi. ring.
  - intros i Hi. rewrite normal_apply. apply Rsum_0. intros k Hk. rewrite H by exact Hk. ring.
Qed.

(** The inverse of the normal matrix. *)
Definition normal_inverse (m n : nat) (J B : list (list R)) : Prop :=
  matrix n n B /\ meq n (mm n (at_ B) (normal_entry m J)) one /\ meq n (mm n (normal_entry m J) (at_ B)) one.
Lemma inv_gram m n J : matrix m n J -> (0 < m)%nat ->
  (independent_columns m n J -> exists B, inv (gram J) = Ok B /\ normal_inverse m n J B) /\
  (~ independent_columns m n J -> inv (gram J) = Err LinAlgError).
Proof.
  intros HJ Hm. destruct (gram_matrix m n J HJ Hm) as [HG EG]. split; intros HI.
  - destruct (inv_spec n (gram J) HG) as [(B & E & HB & H1 & H2)|(_ & x & (j & Hj & Nz) & Hx)].
    + exists B. split; [exact E|]. split; [exact HB|]. split; intros i j Hi Hj; [rewrite <- (H1 i j Hi Hj)|rewrite <- (H2 i j Hi Hj)]; unfold mm; apply Rsum_ext; intros k Hk; rewrite EG by assumption; reflexivity.
    + exfalso. apply Nz. apply (HI x); [|exact Hj]. apply kernel_iff. intros i Hi. rewrite <- (Hx i Hi). unfold apply. apply Rsum_ext. intros l Hl. rewrite EG by assumption. reflexivity.
  - destruct (inv_spec n (gram J) HG) as [(B & E & HB & H1 & H2)|(E & _)]; [|exact E]. exfalso. apply HI. intros x Hx j Hj.
    assert (K : forall i, (i < n)%nat -> apply n (at_ (gram J)) x i = 0).
    { intros i Hi. unfold apply. rewrite <- (proj2 (kernel_iff m n J x) Hx i Hi). apply Rsum_ext. intros l Hl. rewrite EG by assumption. reflexivity. }
    transitivity (apply n one x j). { unfold apply, one. rewrite (Rsum_single n j) by (assumption || (intros k _ N; destruct (Nat.eqb_spec j k); [congruence|ring])). rewrite Nat.eqb_refl. ring. }
    transitivity (apply n (mm n (at_ B) (at_ (gram J))) x j). { unfold apply. apply Rsum_ext. intros l Hl. rewrite (H1 j l Hj Hl). reflexivity. }
    rewrite apply_mm. unfold apply at 1. apply Rsum_0. intros i Hi. rewrite K by exact Hi. ring.
Qed.
Lemma ninv_sym m n J B : normal_inverse m n J B -> forall i j, (i < n)%nat -> (j < n)%nat -> at_ B i j = at_ B j i.
Proof.
  intros (_ & H1 & H2). apply (inverse_unique n (normal_entry m J) (at_ B) (fun i j => at_ B j i) H1).
  intros i j Hi Hj. transitivity (mm n (at_ B) (normal_entry m J) j i); [|rewrite (H1 j i Hj Hi); unfold one; rewrite Nat.eqb_sym; reflexivity].
  unfold mm. apply Rsum_ext. intros k _. rewrite (normal_sym m J i k). ring.
Qed.
Lemma ninv_quadratic m n J B x : normal_inverse m n J B ->
  Rsum n (fun i => Rsum n (fun j => x i * at_ B i j * x j)) = Rsum m (fun k => Rsum n (fun j => at_ J k j * apply n (at_ B) x j) ^ 2).
Proof.
  intros HB. destruct HB as (_ & H1 & H2). rewrite <- normal_square.
  transitivity (Rsum n (fun i => x i * apply n (at_ B) x i)).
  { apply Rsum_ext. intros i _. unfold apply. rewrite <- Rsum_scal. apply Rsum_ext. intros; ring. }
  apply Rsum_ext. intros i Hi. rewrite Rmult_comm. f_equal. symmetry.
  change (apply n (normal_entry m J) (apply n (at_ B) x) i = x i). rewrite <- apply_mm.
  transitivity (apply n one x i); [unfold apply; apply Rsum_ext; intros l Hl; rewrite (H2 i l Hi Hl); reflexivity|].
  unfold apply, one. rewrite (Rsum_single n i) by (assumption || (intros k _ N; destruct (Nat.eqb_spec i k); [congruence|ring])). rewrite Nat.eqb_refl. ring.
Qed.
Lemma ninv_positive m n J B x : independent_columns m n J -> normal_inverse m n J B -> (exists i, (i < n)%nat /\ x i <> 0) ->
  0 < Rsum n (fun i => Rsum n (fun j => x i * at_ B i j * x j)).
Proof.
  intros HI HB (i & Hi & Nz). rewrite (ninv_quadratic m n J B x HB).
  destruct (Rle_lt_or_eq_dec 0 (Rsum m (fun k => Rsum n (fun j => at_ J k j * apply n (at_ B) x j) ^ 2))) as [P|E]; [apply Rsum_nonneg; intros; apply pow2_ge_0|exact P|].
  exfalso. apply Nz. symmetry in E. pose proof (squares_zero _ _ E) as Z. cbn beta in Z. pose proof (HI _ Z) as Z'. destruct HB as (_ & H1 & H2).
  transitivity (apply n one x i). { unfold apply, one. rewrite (Rsum_single n i) by (assumption || (intros k _ N; destruct (Nat.eqb_spec i k); [congruence|ring])). rewrite Nat.eqb_refl. ring. }
  transitivity (apply n (mm n (normal_entry m J) (at_ B)) x i); [unfold apply; apply Rsum_ext; intros l Hl; rewrite (H2 i l Hi Hl); reflexivity|].
  rewrite apply_mm. unfold apply at 1. apply Rsum_0. intros k Hk. rewrite Z' by exact Hk. ring.
Qed.

(** The variance factor. *)
Lemma vdot_square rs : vdot rs rs = Rsum (length rs) (fun k => nth k rs 0 ^ 2).
Proof.
  unfold vdot. induction rs as [|x rs IH]; [reflexivity|]. cbn [map2 length]. rewrite py_sum_cons, IH, Rsum_Sl. cbn [nth]. ring.
Qed.
Lemma variance_pos rs n_pars : (n_pars < length rs)%nat -> (exists k, (k < length rs)%nat /\ nth k rs 0 <> 0) -> 0 < variance rs n_pars.
Proof.
  intros Hp (k & Hk & Nz). unfold variance. apply Rdiv_lt_0_compat; [|apply lt_0_INR; lia].
  pose proof (Rsum_ge_term (length rs) k (fun k => nth k rs 0 ^ 2) (fun i _ => pow2_ge_0 _) Hk) as P. cbn beta in P. assert (0 < nth k rs 0 ^ 2) by (rewrite <- Rsqr_pow2; apply Rsqr_pos_lt; exact Nz). lra.
Qed.
Lemma map2d_matrix f r c m : matrix r c m -> matrix r c (map2d f m).
Proof. intros [L F]. unfold map2d. split; [rewrite map_length; exact L|]. apply Forall_map. rewrite Forall_forall in *. intros row Hr. rewrite map_length. apply F, Hr. Qed.
Lemma map2d_at f r c m i j : matrix r c m -> (i < r)%nat -> (j < c)%nat -> at_ (map2d f m) i j = f (at_ m i j).
Proof.
  intros [L F] Hi Hj. unfold at_, map2d. rewrite (nth_indep _ [] (map f [])) by (rewrite map_length; lia). rewrite map_nth.
  rewrite (nth_indep _ 0 (f 0)) by (rewrite map_length; rewrite Forall_forall in F; rewrite (F (nth i m [])) by (apply nth_In; lia); exact Hj). apply map_nth.
Qed.

(** Inverse of a diagonal array. *)
Definition diagonal (n : nat) (d : nat -> R) : list (list R) := array n n (fun i j => if Nat.eqb i j then d i else 0).
Lemma diagonal_at n d i j : (i < n)%nat -> (j < n)%nat -> at_ (diagonal n d) i j = if Nat.eqb i j then d i else 0.
Proof. apply array_at. Qed.
Lemma inv_diagonal n d : (forall i, (i < n)%nat -> d i <> 0) -> inv (diagonal n d) = Ok (diagonal n (fun i => / d i)).
Proof.
  intros Hd. destruct (inv_spec n (diagonal n d) (array_matrix _ _ _)) as [(B & E & HB & H1 & H2)|(_ & x & (j & Hj & Nz) & Hx)].
  - rewrite E. f_equal. apply (matrix_ext n n); [exact HB|apply array_matrix|]. intros i j Hi Hj.
    apply (inverse_unique n (at_ (diagonal n d)) (at_ B) (at_ (diagonal n (fun i => / d i))) H1); [|assumption|assumption].
    intros r c Hr Hc. unfold mm, one. rewrite (Rsum_single n r); [|exact Hr|intros k Hk N; rewrite diagonal_at by assumption; destruct (Nat.eqb_spec r k); [congruence|ring]].
    rewrite !diagonal_at, Nat.eqb_refl by assumption. destruct (Nat.eqb_spec r c); [field; apply Hd; exact Hr|ring].
  - exfalso. apply Nz. specialize (Hx j Hj). unfold apply in Hx. rewrite (Rsum_single n j) in Hx; [|exact Hj|intros k Hk N; rewrite diagonal_at by assumption; destruct (Nat.eqb_spec j k); [congruence|ring]].
    rewrite diagonal_at, Nat.eqb_refl in Hx by assumption. apply Rmult_integral in Hx. destruct Hx as [Hx|Hx]; [exfalso; exact (Hd j Hj Hx)|exact Hx].
Qed.
Lemma inv_diagonal_zero n d i : (i < n)%nat -> d i = 0 -> inv (diagonal n d) = Err LinAlgError.
Proof.
  intros Hi Hd. destruct (inv_spec n (diagonal n d) (array_matrix _ _ _)) as [(B & E & HB & H1 & H2)|(E & _)]; [|exact E]. exfalso.
  specialize (H2 i i Hi Hi). unfold mm, one in H2. rewrite Nat.eqb_refl in H2. rewrite Rsum_0 in H2; [lra|]. intros k Hk. rewrite diagonal_at by assumption. destruct (Nat.eqb i k); [rewrite Hd|]; ring.
Qed.
Lemma mdot_at n a b : matrix n n a -> matrix n n b -> matrix n n (mdot a b) /\ forall i j, (i < n)%nat -> (j < n)%nat -> at_ (mdot a b) i j = Rsum n (fun k => at_ a i k * at_ b k j).
Proof.
  intros [La Fa] HB. destruct n as [|n].
  - destruct HB as [Lb Fb]. destruct a; [|discriminate]. destruct b; [|discriminate]. split; [split; [reflexivity|constructor]|intros; lia].
  - unfold mdot. rewrite La, (ncols_matrix (S n) (S n) b HB) by lia. destruct HB as [Lb Fb]. rewrite Lb. split; [apply array_matrix|]. intros i j Hi Hj. rewrite array_at by assumption. rewrite py_sum_seq. reflexivity.
Qed.

(** What co_matrices computes. *)
Lemma comat_value rs J n_pars m n B : matrix m n J -> (0 < m)%nat -> inv (gram J) = Ok B -> normal_inverse m n J B -> independent_columns m n J ->
  (n_pars < length rs)%nat -> (exists k, (k < length rs)%nat /\ nth k rs 0 <> 0) ->
  exists cov corr, co_matrices rs J n_pars = Ok (cov, corr) /\ matrix n n cov /\ matrix n n corr /\
    (forall i j, (i < n)%nat -> (j < n)%nat -> at_ cov i j = variance rs n_pars * at_ B i j) /\
    (forall i, (i < n)%nat -> 0 < at_ cov i i) /\
    (forall i j, (i < n)%nat -> (j < n)%nat -> at_ corr i j = at_ cov i j / (sqrt (at_ cov i i) * sqrt (at_ cov j j))).
Proof.
  intros HJ Hm EB HB HI Hp Hr. unfold co_matrices. destruct (Nat.leb_spec (length rs) n_pars); [lia|]. rewrite EB. cbn [bind].
  assert (Es : vdot rs rs / INR (length rs - n_pars) = variance rs n_pars) by (rewrite vdot_square; reflexivity). rewrite Es.
  set (s := variance rs n_pars). assert (Ps : 0 < s) by (apply variance_pos; assumption).
  set (cov := map2d (fun x => s * x) B). pose proof HB as (HBm & _ & _).
  assert (Hcov : matrix n n cov) by (apply map2d_matrix; exact HBm).
  assert (Ecov : forall i j, (i < n)%nat -> (j < n)%nat -> at_ cov i j = s * at_ B i j) by (intros; apply (map2d_at _ n n); assumption).
  assert (Pcov : forall i, (i < n)%nat -> 0 < at_ cov i i).
  { intros i Hi. rewrite Ecov by assumption. apply Rmult_lt_0_compat; [exact Ps|].
    pose proof (ninv_positive m n J B (fun k => if Nat.eqb k i then 1 else 0) HI HB) as P. specialize (P ltac:(exists i; rewrite Nat.eqb_refl; split; [exact Hi|lra])).
    rewrite (Rsum_single n i) in P; [|exact Hi|intros k _ N; apply Rsum_0; intros; destruct (Nat.eqb_spec k i); [congruence|ring]].
    rewrite (Rsum_single n i) in P; [|exact Hi|intros k _ N; destruct (Nat.eqb_spec k i); [congruence|ring]]. rewrite Nat.eqb_refl in P. lra. }
  assert (Lc : length cov = n) by apply Hcov. rewrite Lc.
  change (array n n (fun i j => if Nat.eqb i j then sqrt (entries cov i i) else 0)) with (diagonal n (fun i => sqrt (at_ cov i i))).
  assert (Hd : forall i, (i < n)%nat -> sqrt (at_ cov i i) <> 0) by (intros i Hi; apply Rgt_not_eq, sqrt_lt_R0, Pcov; exact Hi).
  rewrite inv_diagonal by exact Hd. cbn [bind]. set (D := diagonal n (fun i => / sqrt (at_ cov i i))).
  assert (HD : matrix n n D) by apply array_matrix. destruct (mdot_at n D cov HD Hcov) as [H1 E1]. destruct (mdot_at n (mdot D cov) D H1 HD) as [H2 E2].
  exists cov, (mdot (mdot D cov) D). split; [reflexivity|]. split; [exact Hcov|]. split; [exact H2|]. split; [exact Ecov|]. split; [exact Pcov|].
  intros i j Hi Hj. rewrite E2 by assumption. rewrite (Rsum_single n j); [|exact Hj|intros k Hk N; unfold D; rewrite (diagonal_at _ _ k j) by assumption; destruct (Nat.eqb_spec k j); [congruence|ring]].
  rewrite E1 by assumption. rewrite (Rsum_single n i); [|exact Hi|intros k Hk N; unfold D; rewrite (diagonal_at _ _ i k) by assumption; destruct (Nat.eqb_spec i k); [congruence|ring]].
  unfold D. rewrite !diagonal_at, !Nat.eqb_refl by assumption. field. auto.
Qed.

Lemma comat_ok rs J n_pars m n : matrix m n J -> (0 < m)%nat -> independent_columns m n J ->
  (n_pars < length rs)%nat -> (exists k, (k < length rs)%nat /\ nth k rs 0 <> 0) ->
  exists cov corr, co_matrices rs J n_pars = Ok (cov, corr) /\ matrix n n cov /\ matrix n n corr /\
    (forall i j, (i < n)%nat -> (j < n)%nat -> Rsum n (fun k => normal_entry m J i k * at_ cov k j) = if Nat.eqb i j then variance rs n_pars else 0) /\
    (forall i j, (i < n)%nat -> (j < n)%nat -> at_ cov i j = at_ cov j i /\ at_ corr i j = at_ corr j i) /\
    (forall x, (exists i, (i < n)%nat /\ x i <> 0) -> 0 < quadratic n cov x) /\
    (forall i j, (i < n)%nat -> (j < n)%nat -> at_ corr i j = at_ cov i j / sqrt (at_ cov i i * at_ cov j j)) /\
    (forall i, (i < n)%nat -> at_ corr i i = 1) /\ (forall i j, (i < n)%nat -> (j < n)%nat -> i <> j -> Rabs (at_ corr i j) < 1).
Proof.
  intros HJ Hm HI Hp Hr. destruct (proj1 (inv_gram m n J HJ Hm) HI) as (B & EB & HB).
  destruct (comat_value rs J n_pars m n B HJ Hm EB HB HI Hp Hr) as (cov & corr & E & Hcov & Hcorr & Ecov & Pcov & Ecorr).
  assert (Ps : 0 < variance rs n_pars) by (apply variance_pos; assumption). set (s := variance rs n_pars) in *.
  assert (Sym : forall i j, (i < n)%nat -> (j < n)%nat -> at_ cov i j = at_ cov j i) by (intros i j Hi Hj; rewrite !Ecov, (ninv_sym m n J B HB i j) by assumption; reflexivity).
  assert (PD : forall x, (exists i, (i < n)%nat /\ x i <> 0) -> 0 < quadratic n cov x).
  { intros x Hx. unfold quadratic. replace (Rsum n (fun i => Rsum n (fun j => x i * at_ cov i j * x j))) with (s * Rsum n (fun i => Rsum n (fun j => x i * at_ B i j * x j))).
    - apply Rmult_lt_0_compat; [exact Ps|]. apply (ninv_positive m n J B x HI HB Hx).
    - rewrite <- Rsum_scal. apply Rsum_ext. intros i Hi. rewrite <- Rsum_scal. apply Rsum_ext. intros j Hj. rewrite Ecov by assumption. ring. }
  exists cov, corr. split; [exact E|]. split; [exact Hcov|]. split; [exact Hcorr|]. split; [|split; [|split; [exact PD|split; [|split]]]].
  - intros i j Hi Hj. destruct HB as (_ & _ & H2). transitivity (s * mm n (normal_entry m J) (at_ B) i j); [unfold mm; rewrite <- Rsum_scal; apply Rsum_ext; intros k Hk; rewrite Ecov by assumption; ring|].
    rewrite (H2 i j Hi Hj). unfold one. destruct (Nat.eqb i j); ring.
  - intros i j Hi Hj. split; [apply Sym; assumption|]. rewrite !Ecorr by assumption. rewrite (Sym i j Hi Hj). rewrite (Rmult_comm (sqrt (at_ cov j j))). reflexivity.
  - intros i j Hi Hj. rewrite Ecorr by assumption. rewrite sqrt_mult by (apply Rlt_le, Pcov; assumption). reflexivity.
  - intros i Hi. rewrite Ecorr by assumption. rewrite sqrt_sqrt by (apply Rlt_le, Pcov; exact Hi). field. apply Rgt_not_eq, Pcov, Hi.
  - intros i j Hi Hj Nij. rewrite Ecorr by assumption. set (a := sqrt (at_ cov i i)). set (b := sqrt (at_ cov j j)).
    assert (Pa : 0 < a) by (apply sqrt_lt_R0, Pcov, Hi). assert (Pb : 0 < b) by (apply sqrt_lt_R0, Pcov, Hj).
    assert (Ea : at_ cov i i = a * a) by (unfold a; rewrite sqrt_sqrt; [reflexivity|apply Rlt_le, Pcov, Hi]). assert (Eb : at_ cov j j = b * b) by (unfold b; rewrite sqrt_sqrt; [reflexivity|apply Rlt_le, Pcov, Hj]).
    assert (Q : forall u v, u <> 0 -> 0 < u * u * at_ cov i i + 2 * (u * v * at_ cov i j) + v * v * at_ cov j j).
    { intros u v Hu. pose proof (PD (fun k => if Nat.eqb k i then u else if Nat.eqb k j then v else 0)) as P. specialize (P ltac:(exists i; rewrite Nat.eqb_refl; split; assumption)).
      unfold quadratic in P. assert (Two : forall f, Rsum n (fun k => (if Nat.eqb k i then u else if Nat.eqb k j then v else 0) * f k) = u * f i + v * f j).
      { intros f. transitivity (Rsum n (fun k => (if Nat.eqb k i then u * f k else 0) + (if Nat.eqb k j then v * f k else 0))).
        - apply Rsum_ext. intros k _. destruct (Nat.eqb_spec k i) as [->|]; [destruct (Nat.eqb_spec i j); [congruence|ring]|]. destruct (Nat.eqb k j); ring.
        - rewrite Rsum_plus, (Rsum_delta n (fun k => u * f k) i Hi), (Rsum_delta n (fun k => v * f k) j Hj). reflexivity. }
      assert (Eq : Rsum n (fun i0 => Rsum n (fun j0 => (if Nat.eqb i0 i then u else if Nat.eqb i0 j then v else 0) * at_ cov i0 j0 * (if Nat.eqb j0 i then u else if Nat.eqb j0 j then v else 0)))
        = Rsum n (fun i0 => (if Nat.eqb i0 i then u else if Nat.eqb i0 j then v else 0) * (u * at_ cov i0 i + v * at_ cov i0 j))).
      { apply Rsum_ext. intros i0 _. rewrite <- (Two (fun k => at_ cov i0 k)), <- Rsum_scal. apply Rsum_ext. intros; ring. }
      rewrite Eq, (Two (fun k => u * at_ cov k i + v * at_ cov k j)), (Sym j i Hj Hi) in P. lra. }
    assert (Pab : 0 < a * b) by (apply Rmult_lt_0_compat; assumption). set (c := at_ cov i j) in *.
    pose proof (Q b a (Rgt_not_eq _ _ Pb)) as Q1. pose proof (Q b (- a) (Rgt_not_eq _ _ Pb)) as Q2. rewrite Ea, Eb in Q1, Q2.
    assert (C1 : - (a * b) < c). { apply Rmult_lt_reg_l with (2 * (a * b)); [lra|]. replace (2 * (a * b) * - (a * b)) with (- (b * b * (a * a) + a * a * (b * b))) by ring. replace (2 * (a * b) * c) with (2 * (b * a * c)) by ring. lra. }
    assert (C2 : c < a * b). { apply Rmult_lt_reg_l with (2 * (a * b)); [lra|]. replace (2 * (a * b) * (a * b)) with (b * b * (a * a) + - a * - a * (b * b)) by ring. replace (2 * (a * b) * c) with (- (2 * (b * - a * c))) by ring. lra. }
    apply Rabs_def1.
    + apply Rmult_lt_reg_r with (a * b); [exact Pab|]. unfold Rdiv. rewrite Rmult_assoc, Rinv_l by lra. lra.
    + apply Rmult_lt_reg_r with (a * b); [exact Pab|]. unfold Rdiv. rewrite Rmult_assoc, Rinv_l by lra. lra.
Qed.

(** When it raises. *)
Lemma comat_singular rs J n_pars m n : matrix m n J -> (0 < m)%nat -> (n_pars < length rs)%nat -> ~ independent_columns m n J -> co_matrices rs J n_pars = Err LinAlgError.
Proof. intros HJ Hm Hp HI. unfold co_matrices. destruct (Nat.leb_spec (length rs) n_pars); [lia|]. rewrite (proj2 (inv_gram m n J HJ Hm) HI). reflexivity. Qed.
Lemma comat_exact rs J n_pars m n : matrix m n J -> (0 < m)%nat -> (0 < n)%nat -> (n_pars < length rs)%nat -> (forall k, (k < length rs)%nat -> nth k rs 0 = 0) -> co_matrices rs J n_pars = Err LinAlgError.
Proof.
  intros HJ Hm Hn Hp Hz. unfold co_matrices. destruct (Nat.leb_spec (length rs) n_pars); [lia|].
  destruct (gram_matrix m n J HJ Hm) as [HG _]. destruct (inv_spec n (gram J) HG) as [(B & E & HB & _)|(E & _)]; rewrite E; [|reflexivity]. cbn [bind].
  assert (Ez : vdot rs rs = 0) by (rewrite vdot_square; apply Rsum_0; intros k Hk; rewrite Hz by exact Hk; ring). rewrite Ez.
  set (cov := map2d _ B). assert (Hcov : matrix n n cov) by (apply map2d_matrix; exact HB). assert (Lc : length cov = n) by apply Hcov. rewrite Lc.
  change (array n n (fun i j => if Nat.eqb i j then sqrt (entries cov i i) else 0)) with (diagonal n (fun i => sqrt (at_ cov i i))).
  rewrite (inv_diagonal_zero n _ 0 Hn); [reflexivity|]. cbn beta. unfold cov. rewrite (map2d_at _ n n B 0 0 HB Hn Hn). unfold Rdiv. rewrite Rmult_0_l, Rmult_0_l. apply sqrt_0.
Qed.

(** ** Rescaling *)
Lemma scaled_matrix s m n J : matrix m n J -> matrix m n (scale_columns s J) /\ forall k j, (k < m)%nat -> (j < n)%nat -> at_ (scale_columns s J) k j = at_ J k j * s j.
Proof.
  intros [L F]. unfold scale_columns. split.
  - split; [rewrite map_length; exact L|]. apply Forall_map. rewrite Forall_forall in *. intros row Hr. rewrite map_length, seq_length. apply F, Hr.
  - intros k j Hk Hj. unfold at_. assert (Lr : length (nth k J []) = n) by (rewrite Forall_forall in F; apply F, nth_In; lia).
    rewrite (nth_indep _ [] (map (fun j => nth j [] 0 * s j) (seq 0 (length (@nil R))))) by (rewrite map_length; lia).
    rewrite (map_nth (fun row => map (fun j => nth j row 0 * s j) (seq 0 (length row))) J [] k). rewrite Lr.
    rewrite (nth_indep _ 0 (nth 0 (nth k J []) 0 * s 0%nat)) by (rewrite map_length, seq_length; exact Hj).
    rewrite (map_nth (fun j => nth j (nth k J []) 0 * s j) (seq 0 n) 0%nat j), seq_nth by exact Hj. reflexivity.
Qed.
Lemma comat_value_unique rs J n_pars m n cov corr : matrix m n J -> (0 < m)%nat -> independent_columns m n J ->
  (n_pars < length rs)%nat -> (exists k, (k < length rs)%nat /\ nth k rs 0 <> 0) -> co_matrices rs J n_pars = Ok (cov, corr) ->
  exists B, normal_inverse m n J B /\ (forall i j, (i < n)%nat -> (j < n)%nat -> at_ cov i j = variance rs n_pars * at_ B i j) /\ matrix n n cov /\ matrix n n corr /\
   (forall i, (i < n)%nat -> 0 < at_ cov i i) /\
   (forall i j, (i < n)%nat -> (j < n)%nat -> at_ corr i j = at_ cov i j / (sqrt (at_ cov i i) * sqrt (at_ cov j j))).
Proof.
  intros HJ Hm HI Hp Hr E. destruct (proj1 (inv_gram m n J HJ Hm) HI) as (B & EB & HB).
  destruct (comat_value rs J n_pars m n B HJ Hm EB HB HI Hp Hr) as (cov' & corr' & E' & Hcov & Hcorr & Ecov & Pcov & Ecorr). rewrite E in E'. apply Ok_inj in E'. injection E' as <- <-. exists B. exact (conj HB (conj Ecov (conj Hcov (conj Hcorr (conj Pcov Ecorr))))).
Qed.
Lemma comat_columns rs J n_pars m n s cov corr : matrix m n J -> (0 < m)%nat -> independent_columns m n J ->
  (n_pars < length rs)%nat -> (exists k, (k < length rs)%nat /\ nth k rs 0 <> 0) -> (forall j, (j < n)%nat -> 0 < s j) -> co_matrices rs J n_pars = Ok (cov, corr) ->
  exists cov', co_matrices rs (scale_columns s J) n_pars = Ok (cov', corr) /\ matrix n n cov' /\
    forall i j, (i < n)%nat -> (j < n)%nat -> at_ cov' i j = at_ cov i j / (s i * s j).
Proof.
  intros HJ Hm HI Hp Hr Hs E. destruct (comat_value_unique rs J n_pars m n cov corr HJ Hm HI Hp Hr E) as (B & HB & Ecov & Hcov & Hcorr & Pcov & Ecorr).
  destruct (scaled_matrix s m n J HJ) as [HJ' EJ'].
  assert (HI' : independent_columns m n (scale_columns s J)).
  { intros x Hx j Hj. assert (Z : s j * x j = 0).
    { apply (HI (fun j => s j * x j)); [|exact Hj]. intros k Hk. rewrite <- (Hx k Hk). apply Rsum_ext. intros l Hl. rewrite EJ' by assumption. ring. }
    apply Rmult_integral in Z. specialize (Hs j Hj). destruct Z; [lra|assumption]. }
  destruct (proj1 (inv_gram m n _ HJ' Hm) HI') as (B' & EB' & HB').
  destruct (comat_value rs (scale_columns s J) n_pars m n B' HJ' Hm EB' HB' HI' Hp Hr) as (cov' & corr' & E' & Hcov' & Hcorr' & Ecov' & Pcov' & Ecorr').
  assert (EN : forall i j, (i < n)%nat -> (j < n)%nat -> normal_entry m (scale_columns s J) i j = s i * s j * normal_entry m J i j).
  { intros i j Hi Hj. unfold normal_entry. rewrite <- Rsum_scal. apply Rsum_ext. intros k Hk. rewrite !EJ' by assumption. ring. }
  assert (EBB : forall i j, (i < n)%nat -> (j < n)%nat -> at_ B' i j = at_ B i j / (s i * s j)).
  { destruct HB' as (_ & H1' & _). destruct HB as (_ & _ & H2). intros i j Hi Hj.
    apply (inverse_unique n (normal_entry m (scale_columns s J)) (at_ B') (fun i j => at_ B i j / (s i * s j)) H1'); [|assumption|assumption].
    intros r c Hr' Hc. transitivity (s r / s c * mm n (normal_entry m J) (at_ B) r c).
    - unfold mm. rewrite <- Rsum_scal. apply Rsum_ext. intros k Hk. rewrite EN by assumption. pose proof (Hs k Hk). pose proof (Hs c Hc). field. lra.
    - rewrite (H2 r c Hr' Hc). unfold one. destruct (Nat.eqb_spec r c) as [->|]; [pose proof (Hs c Hc); field; lra|ring]. }
  assert (EC : forall i j, (i < n)%nat -> (j < n)%nat -> at_ cov' i j = at_ cov i j / (s i * s j)).
  { intros i j Hi Hj. rewrite Ecov', Ecov, EBB by assumption. unfold Rdiv. ring. }
  exists cov'. split; [|split; [exact Hcov'|exact EC]]. rewrite E'. f_equal. f_equal. apply (matrix_ext n n); [exact Hcorr'|exact Hcorr|]. intros i j Hi Hj. rewrite Ecorr', Ecorr by assumption.
  assert (Sq : forall k, (k < n)%nat -> sqrt (at_ cov' k k) = sqrt (at_ cov k k) / s k).
  { intros k Hk. rewrite EC by assumption. pose proof (Hs k Hk). rewrite sqrt_div by (try (apply Rlt_le, Pcov, Hk); nra). f_equal. apply sqrt_square. lra. }
  rewrite !Sq, EC by assumption. pose proof (Hs i Hi). pose proof (Hs j Hj). assert (sqrt (at_ cov i i) <> 0) by (apply Rgt_not_eq, sqrt_lt_R0, Pcov, Hi). assert (sqrt (at_ cov j j) <> 0) by (apply Rgt_not_eq, sqrt_lt_R0, Pcov, Hj). field. repeat split; lra || assumption.
Qed.
Lemma comat_residual rs J n_pars m n c cov corr : matrix m n J -> (0 < m)%nat -> independent_columns m n J ->
  (n_pars < length rs)%nat -> (exists k, (k < length rs)%nat /\ nth k rs 0 <> 0) -> c <> 0 -> co_matrices rs J n_pars = Ok (cov, corr) ->
  exists cov', co_matrices (map (Rmult c) rs) J n_pars = Ok (cov', corr) /\ matrix n n cov' /\
    forall i j, (i < n)%nat -> (j < n)%nat -> at_ cov' i j = c ^ 2 * at_ cov i j.
Proof.
  intros HJ Hm HI Hp Hr Hc E. destruct (comat_value_unique rs J n_pars m n cov corr HJ Hm HI Hp Hr E) as (B & HB & Ecov & Hcov & Hcorr & Pcov & Ecorr).
  assert (En : forall k, (k < length rs)%nat -> nth k (map (Rmult c) rs) 0 = c * nth k rs 0) by (intros k Hk; rewrite (nth_indep _ 0 (c * 0)) by (rewrite map_length; exact Hk); apply map_nth).
  assert (Hr' : exists k, (k < length (map (Rmult c) rs))%nat /\ nth k (map (Rmult c) rs) 0 <> 0).
  { destruct Hr as (k & Hk & Nz). exists k. rewrite map_length. split; [exact Hk|]. rewrite En by exact Hk. apply Rmult_integral_contrapositive_currified; assumption. }
  destruct (proj1 (inv_gram m n J HJ Hm) HI) as (B' & EB' & HB').
  destruct (comat_value (map (Rmult c) rs) J n_pars m n B' HJ Hm EB' HB' HI ltac:(rewrite map_length; exact Hp) Hr') as (cov' & corr' & E' & Hcov' & Hcorr' & Ecov' & Pcov' & Ecorr').
  assert (EB : meq n (at_ B) (at_ B')) by (destruct HB as (_ & H1 & _); destruct HB' as (_ & _ & H2); apply (inverse_unique n (normal_entry m J)); assumption).
  assert (Ev : variance (map (Rmult c) rs) n_pars = c ^ 2 * variance rs n_pars).
  { unfold variance. rewrite map_length. unfold Rdiv. rewrite <- Rmult_assoc. f_equal. rewrite <- Rsum_scal. apply Rsum_ext. intros k Hk. rewrite En by exact Hk. ring. }
  assert (EC : forall i j, (i < n)%nat -> (j < n)%nat -> at_ cov' i j = c ^ 2 * at_ cov i j) by (intros i j Hi Hj; rewrite Ecov', Ecov, Ev, (EB i j Hi Hj) by assumption; ring).
  exists cov'. split; [|split; [exact Hcov'|exact EC]]. rewrite E'. f_equal. f_equal. apply (matrix_ext n n); [exact Hcorr'|exact Hcorr|]. intros i j Hi Hj. rewrite Ecorr', Ecorr by assumption.
  assert (Sq : forall k, (k < n)%nat -> sqrt (at_ cov' k k) = Rabs c * sqrt (at_ cov k k)).
  { intros k Hk. rewrite EC by assumption. rewrite sqrt_mult by (try apply pow2_ge_0; apply Rlt_le, Pcov, Hk). f_equal. replace (c ^ 2) with (Rsqr c) by (unfold Rsqr; ring). apply sqrt_Rsqr_abs. }
  rewrite !Sq, EC by assumption. assert (sqrt (at_ cov i i) <> 0) by (apply Rgt_not_eq, sqrt_lt_R0, Pcov, Hi). assert (sqrt (at_ cov j j) <> 0) by (apply Rgt_not_eq, sqrt_lt_R0, Pcov, Hj).
  assert (Hab : Rabs c <> 0) by (apply Rabs_no_R0; exact Hc). replace (c ^ 2) with (Rabs c * Rabs c) by (rewrite <- Rabs_mult; rewrite Rabs_pos_eq; [ring|nra]). field. auto.
Qed.
