(** Finite sums over the reals and binomial coefficients (proof library). *)
From Verif Require Import PyBase.
Open Scope R_scope.

Fixpoint Rsum (n : nat) (f : nat -> R) : R :=
  match n with O => 0 | S k => Rsum k f + f k end.

Lemma Rsum_ext n f g : (forall i, (i < n)%nat -> f i = g i) -> Rsum n f = Rsum n g.
Proof. induction n as [|n IH]; cbn; intros H; [reflexivity|]. rewrite IH by (intros; apply H; lia). rewrite H by lia. reflexivity. Qed.

Lemma Rsum_plus n f g : Rsum n (fun i => f i + g i) = Rsum n f + Rsum n g.
Proof. induction n as [|n IH]; cbn; [lra|]. rewrite IH; lra. Qed.

Lemma Rsum_minus n f g : Rsum n (fun i => f i - g i) = Rsum n f - Rsum n g.
Proof. induction n as [|n IH]; cbn; [lra|]. rewrite IH; lra. Qed.

Lemma Rsum_scal n c f : Rsum n (fun i => c * f i) = c * Rsum n f.
Proof. induction n as [|n IH]; cbn; [lra|]. rewrite IH; lra. Qed.

Lemma Rsum_scal_r n c f : Rsum n (fun i => f i * c) = Rsum n f * c.
Proof. induction n as [|n IH]; cbn; [lra|]. rewrite IH; lra. Qed.

Lemma Rsum_0 n f : (forall i, (i < n)%nat -> f i = 0) -> Rsum n f = 0.
Proof. induction n as [|n IH]; cbn; intros H; [reflexivity|]. rewrite IH by (intros; apply H; lia). rewrite H by lia. lra. Qed.

Lemma Rsum_const n c : Rsum n (fun _ => c) = INR n * c.
Proof. induction n as [|n IH]. cbn; lra. cbn [Rsum]. rewrite IH, S_INR. lra. Qed.

Lemma Rsum_Sr n f : Rsum (S n) f = Rsum n f + f n.
Proof. reflexivity. Qed.

Lemma Rsum_Sl n f : Rsum (S n) f = f O + Rsum n (fun i => f (S i)).
Proof. induction n as [|n IH]. cbn; lra. change (Rsum (S (S n)) f) with (Rsum (S n) f + f (S n)). rewrite IH. cbn [Rsum]. lra. Qed.

Lemma Rsum_app n m f : Rsum (n + m) f = Rsum n f + Rsum m (fun i => f (n + i)%nat).
Proof. induction m as [|m IH]. rewrite Nat.add_0_r; cbn; lra. rewrite Nat.add_succ_r; cbn [Rsum]. rewrite IH; lra. Qed.

Lemma Rsum_swap n m f : Rsum n (fun i => Rsum m (fun j => f i j)) = Rsum m (fun j => Rsum n (fun i => f i j)).
Proof.
  induction n as [|n IH]; cbn [Rsum].
  - rewrite Rsum_0; auto.
  - rewrite IH, <- Rsum_plus. reflexivity.
Qed.

Lemma Rsum_rev n f : Rsum n f = Rsum n (fun i => f (n - 1 - i)%nat).
Proof.
  induction n as [|n IH]; [reflexivity|].
  rewrite (Rsum_Sl n (fun i => f (S n - 1 - i)%nat)). cbn [Rsum]. rewrite IH.
  replace (S n - 1 - 0)%nat with n by lia.
  rewrite Rplus_comm. f_equal. apply Rsum_ext; intros i Hi. f_equal; lia.
Qed.

Lemma Rsum_single n k f : (k < n)%nat -> (forall i, (i < n)%nat -> i <> k -> f i = 0) -> Rsum n f = f k.
Proof.
  intros Hk H. replace n with (k + (1 + (n - k - 1)))%nat by lia.
  rewrite !Rsum_app. rewrite (Rsum_0 k) by (intros; apply H; lia).
  rewrite (Rsum_0 (n - k - 1)) by (intros; apply H; lia). cbn [Rsum]. rewrite Nat.add_0_r. lra.
Qed.

Lemma Rsum_extend n m f : (n <= m)%nat -> (forall i, (n <= i < m)%nat -> f i = 0) -> Rsum m f = Rsum n f.
Proof.
  intros Hnm H. replace m with (n + (m - n))%nat by lia. rewrite Rsum_app.
  rewrite (Rsum_0 (m - n)) by (intros; apply H; lia). lra.
Qed.

Lemma Rsum_nonneg n f : (forall i, (i < n)%nat -> 0 <= f i) -> 0 <= Rsum n f.
Proof. induction n as [|n IH]; cbn; intros H; [lra|]. assert (0 <= Rsum n f) by (apply IH; intros; apply H; lia). assert (0 <= f n) by (apply H; lia). lra. Qed.

Lemma Rsum_le n f g : (forall i, (i < n)%nat -> f i <= g i) -> Rsum n f <= Rsum n g.
Proof. induction n as [|n IH]; cbn; intros H; [lra|]. assert (Rsum n f <= Rsum n g) by (apply IH; intros; apply H; lia). assert (f n <= g n) by (apply H; lia). lra. Qed.

Lemma Rsum_ge_term n k f : (forall i, (i < n)%nat -> 0 <= f i) -> (k < n)%nat -> f k <= Rsum n f.
Proof.
  intros H Hk. replace n with (k + (1 + (n - k - 1)))%nat by lia. rewrite !Rsum_app.
  assert (0 <= Rsum k f) by (apply Rsum_nonneg; intros; apply H; lia).
  assert (0 <= Rsum (n - k - 1) (fun i => f (k + (1 + i))%nat)) by (apply Rsum_nonneg; intros; apply H; lia).
  cbn [Rsum]. rewrite Nat.add_0_r. cbn beta in *. lra.
Qed.

Lemma Rsum_abs n f : Rabs (Rsum n f) <= Rsum n (fun i => Rabs (f i)).
Proof. induction n as [|n IH]; cbn. rewrite Rabs_R0; lra. eapply Rle_trans; [apply Rabs_triang|]. lra. Qed.

(** Binomial coefficients as reals, by Pascal's rule. *)
Fixpoint bin (n k : nat) : R :=
  match n, k with
  | _, O => 1
  | O, S _ => 0
  | S n', S k' => bin n' k' + bin n' (S k')
  end.

Lemma bin_0 n : bin n 0 = 1.
Proof. destruct n; reflexivity. Qed.

Lemma bin_gt n k : (n < k)%nat -> bin n k = 0.
Proof. revert k; induction n as [|n IH]; intros [|k] H; try lia; cbn; [reflexivity|]. rewrite !IH by lia; lra. Qed.

Lemma bin_n n : bin n n = 1.
Proof. induction n as [|n IH]; cbn; [reflexivity|]. rewrite IH, bin_gt by lia; lra. Qed.

Lemma bin_fact n k : (k <= n)%nat -> bin n k * INR (fact k) * INR (fact (n - k)) = INR (fact n).
Proof.
  revert k; induction n as [|n IH]; intros k H.
  - replace k with O by lia. cbn; lra.
  - destruct k as [|k].
    + rewrite bin_0, Nat.sub_0_r; cbn [fact]. change (INR 1) with 1. lra.
    + cbn [bin]. destruct (Nat.eq_dec k n) as [->|Hk].
      * rewrite bin_n, bin_gt by lia. replace (S n - S n)%nat with O by lia. cbn [fact]; change (INR 1) with 1; lra.
      * pose proof (IH k ltac:(lia)) as H1. pose proof (IH (S k) ltac:(lia)) as H2.
        replace (S n - S k)%nat with (n - k)%nat by lia.
        replace (n - k)%nat with (S (n - S k)) in * by lia.
        rewrite !fact_simpl, !mult_INR in *. 
        replace (INR (S n)) with (INR (S k) + INR (S (n - S k))) by (rewrite <- plus_INR; f_equal; lia).
        transitivity (INR (S k) * INR (fact n) + INR (S (n - S k)) * INR (fact n)); [|ring].
        rewrite <- H1 at 1. rewrite <- H2. ring.
Qed.

Lemma bin_pos n k : (k <= n)%nat -> 0 < bin n k.
Proof.
  intros H. pose proof (bin_fact n k H) as E.
  pose proof (INR_fact_lt_0 k); pose proof (INR_fact_lt_0 (n - k)); pose proof (INR_fact_lt_0 n).
  assert (0 < INR (fact k) * INR (fact (n - k))) by nra.
  apply Rmult_lt_reg_r with (INR (fact k) * INR (fact (n - k))); [assumption|]. nra.
Qed.

Lemma bin_quot n k : (k <= n)%nat -> bin n k = INR (fact n) / (INR (fact k) * INR (fact (n - k))).
Proof.
  intros H. rewrite <- (bin_fact n k H). field.
  split; apply INR_fact_neq_0.
Qed.

Lemma bin_sym n k : (k <= n)%nat -> bin n (n - k) = bin n k.
Proof. intros H. rewrite !bin_quot by lia. replace (n - (n - k))%nat with k by lia. f_equal; ring. Qed.

(** Binomial theorem. *)
Lemma bin_thm x y n : (x + y) ^ n = Rsum (S n) (fun k => bin n k * x ^ k * y ^ (n - k)).
Proof.
  induction n as [|n IH]; [cbn; ring|].
  change ((x + y) ^ S n) with ((x + y) * (x + y) ^ n). rewrite IH.
  rewrite (Rsum_Sl (S n) (fun k => bin (S n) k * x ^ k * y ^ (S n - k))). rewrite bin_0.
  rewrite (Rsum_ext (S n) (fun i => bin (S n) (S i) * x ^ S i * y ^ (S n - S i))
     (fun i => x * (bin n i * x ^ i * y ^ (n - i)) + bin n (S i) * x ^ S i * y ^ (n - i)))
    by (intros i Hi; cbn [bin pow]; replace (S n - S i)%nat with (n - i)%nat by lia; ring).
  rewrite Rsum_plus, Rsum_scal.
  set (T := Rsum (S n) (fun k => bin n k * x ^ k * y ^ (n - k))).
  assert (E : y * T = y ^ S n + Rsum (S n) (fun i => bin n (S i) * x ^ S i * y ^ (n - i))).
  { unfold T. rewrite (Rsum_Sl n). cbn [Rsum]. rewrite (bin_gt n (S n)) by lia. rewrite bin_0.
    rewrite Rmult_plus_distr_l, <- Rsum_scal.
    rewrite (Rsum_ext n (fun i => y * (bin n (S i) * x ^ S i * y ^ (n - S i))) (fun i => bin n (S i) * x ^ S i * y ^ (n - i))).
    2:{ intros i Hi. replace (n - i)%nat with (S (n - S i)) by lia. cbn [pow]. ring. }
    rewrite Nat.sub_0_r. cbn [pow]. ring. }
  replace (S n - 0)%nat with (S n) by lia. rewrite Rmult_plus_distr_r, E. cbn [pow]. ring.
Qed.

(** Vandermonde. *)
Lemma vandermonde a c k : bin (a + c) k = Rsum (S k) (fun j => bin a j * bin c (k - j)).
Proof.
  revert k; induction a as [|a IH]; intros k.
  - rewrite (Rsum_single _ O) by (try lia; intros [|i] Hi Hn; try lia; cbn; ring).
    rewrite bin_0, Nat.sub_0_r; cbn [Nat.add]; ring.
  - destruct k as [|k].
    + cbn [Rsum]. rewrite !bin_0. cbn. ring.
    + cbn [Nat.add bin]. rewrite !IH. rewrite (Rsum_Sl (S k) (fun j => bin (S a) j * _)).
      rewrite (Rsum_ext (S k) (fun i => bin (S a) (S i) * bin c (S k - S i))
        (fun i => bin a i * bin c (k - i) + bin a (S i) * bin c (S k - S i)))
        by (intros i Hi; cbn [bin]; replace (S k - S i)%nat with (k - i)%nat by lia; ring).
      rewrite Rsum_plus. rewrite (Rsum_Sl (S k) (fun j => bin a j * bin c (S k - j))). rewrite !bin_0. ring.
Qed.

(** Subset of a subset. *)
Lemma bin_subset b s k : (s <= k)%nat -> (k <= b)%nat -> bin b s * bin (b - s) (b - k) = bin b k * bin k s.
Proof.
  intros H1 H2. rewrite (bin_quot b s), (bin_quot (b - s) (b - k)), (bin_quot b k), (bin_quot k s) by lia.
  replace (b - s - (b - k))%nat with (k - s)%nat by lia.
  pose proof (INR_fact_neq_0 (b - s)). pose proof (INR_fact_neq_0 (b - k)). pose proof (INR_fact_neq_0 s).
  pose proof (INR_fact_neq_0 k). pose proof (INR_fact_neq_0 (k - s)).
  field. repeat split; assumption.
Qed.

(** Absorption. *)
Lemma bin_absorb n k : INR (S k) * bin (S n) (S k) = INR (S n) * bin n k.
Proof.
  destruct (le_lt_dec k n) as [H|H].
  - rewrite !bin_quot by lia. replace (S n - S k)%nat with (n - k)%nat by lia.
    rewrite !fact_simpl, !mult_INR.
    pose proof (INR_fact_neq_0 (n - k)). pose proof (INR_fact_neq_0 k). pose proof (not_0_INR (S k) ltac:(lia)).
    field. repeat split; assumption.
  - rewrite !bin_gt by lia. ring.
Qed.
