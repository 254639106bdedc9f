(** Rounding errors: one operation, sums, the size of the Zernike coefficients. *)
From Flocq Require Import Core.
Require Flocq.Prop.Relative.
From Coq Require Import Reals ZArith List Lia Lra.
From Verif Require Import PyBase Sums PyLib SFloat MFloat SRound.
Open Scope R_scope.

Lemma tiny_pos : 0 < tiny. Proof. apply Rinv_0_lt_compat, pow_lt. lra. Qed.
Lemma roundoff_pos : 0 < unit_roundoff. Proof. apply Rinv_0_lt_compat, pow_lt. lra. Qed.
Lemma bpow_inv k : bpow radix2 (- Z.of_nat k) = / 2 ^ k.
Proof. rewrite bpow_opp, bpow_powerRZ. apply f_equal. rewrite <- pow_powerRZ. reflexivity. Qed.

Lemma fl_err e x : unit_roundoff <= e -> Rabs (fl x - x) <= e * (Rabs x + tiny / 100).
Proof.
  intros He. destruct (Flocq.Prop.Relative.error_N_FLT radix2 (-1074) 53 ltac:(lia) (fun t => negb (Z.even t)) x) as (eps & eta & H1 & H2 & _ & H3).
  change (fl x = x * (1 + eps) + eta) in H3. rewrite H3. replace (x * (1 + eps) + eta - x) with (x * eps + eta) by ring.
  assert (E1 : bpow radix2 (Z.opp 53 + 1) = / 2 ^ 52) by exact (bpow_inv 52). assert (E2 : bpow radix2 (-1074) = / 2 ^ 1074) by exact (bpow_inv 1074). rewrite E1 in H1. rewrite E2 in H2. clear E1 E2.
  eapply Rle_trans; [apply Rabs_triang|]. rewrite Rabs_mult. rewrite Rmult_plus_distr_l. apply Rplus_le_compat.
  - rewrite (Rmult_comm e). apply Rmult_le_compat_l; [apply Rabs_pos|]. eapply Rle_trans; [exact H1|]. eapply Rle_trans; [|exact He]. unfold unit_roundoff. change 53%nat with (S 52). rewrite <- tech_pow_Rmult. rewrite Rinv_mult; lra.
  - eapply Rle_trans; [exact H2|]. apply Rle_trans with (unit_roundoff * (tiny / 100)).
    + unfold unit_roundoff, tiny. replace 1074%nat with (53 + (900 + 121))%nat by reflexivity. rewrite !pow_add.
      assert (P1 : 0 < 2 ^ 53) by (apply pow_lt; lra). assert (P2 : 0 < 2 ^ 900) by (apply pow_lt; lra). assert (P3 : 100 <= 2 ^ 121).
      { apply Rle_trans with (2 ^ 7); [lra|]. apply Rle_pow; [lra|lia]. }
      generalize dependent (2 ^ 53). generalize dependent (2 ^ 900). generalize dependent (2 ^ 121). intros z P3 y P2 x0 P1.
      replace (/ 2 * / (x0 * (y * z))) with (/ x0 * / y * (/ 2 * / z)) by (field; lra). replace (/ x0 * (/ y / 100)) with (/ x0 * / y * (/ 100)) by (field; lra).
      apply Rmult_le_compat_l; [apply Rmult_le_pos; left; apply Rinv_0_lt_compat; lra|]. rewrite <- Rinv_mult. apply Rinv_le_contravar; lra.
    + apply Rmult_le_compat_r; [|exact He]. pose proof tiny_pos. lra.
Qed.

(** One more rounded operation adds 6/5 of a unit. *)
Lemma fl_step e k w x y : unit_roundoff <= e -> e <= / 1000 -> Rabs (x - y) <= k * e * w -> Rabs y <= w -> tiny <= w -> k * e <= / 10 -> Rabs (fl x - y) <= (k + 6 / 5) * e * w.
Proof.
  intros He Hs H Hy Hw Hk. pose proof (fl_err e x He) as F. pose proof roundoff_pos. pose proof tiny_pos.
  assert (X : Rabs x <= w + w / 10). { replace x with (y + (x - y)) by ring. eapply Rle_trans; [apply Rabs_triang|]. assert (k * e * w <= / 10 * w) by (apply Rmult_le_compat_r; lra). lra. }
  replace (fl x - y) with ((fl x - x) + (x - y)) by ring. eapply Rle_trans; [apply Rabs_triang|].
  assert (Y : e * (Rabs x + tiny / 100) <= e * (6 / 5 * w)) by (apply Rmult_le_compat_l; lra).
  replace ((k + 6 / 5) * e * w) with (e * (6 / 5 * w) + k * e * w) by ring. lra.
Qed.

Lemma mul_step e k k' w w' x y x' y' : 0 < e -> 0 <= w -> 0 <= w' -> 0 <= k' -> k * e <= / 10 -> Rabs (x - y) <= k * e * w -> Rabs (x' - y') <= k' * e * w' -> Rabs y <= w -> Rabs y' <= w' ->
  Rabs (x * x' - y * y') <= (k + 11 / 10 * k') * e * (w * w').
Proof.
  intros He Hw Hw' Hk' Hk H H' Hy Hy'. replace (x * x' - y * y') with (x * (x' - y') + (x - y) * y') by ring.
  eapply Rle_trans; [apply Rabs_triang|]. rewrite !Rabs_mult.
  assert (X : Rabs x <= 11 / 10 * w). { replace x with (y + (x - y)) by ring. eapply Rle_trans; [apply Rabs_triang|]. assert (k * e * w <= / 10 * w) by (apply Rmult_le_compat_r; lra). lra. }
  replace ((k + 11 / 10 * k') * e * (w * w')) with (11 / 10 * w * (k' * e * w') + k * e * w * w') by ring.
  apply Rplus_le_compat; apply Rmult_le_compat; try apply Rabs_pos; assumption.
Qed.

Lemma div_step e k c d x y dd : 0 < e -> e <= / 1000 -> 0 < d -> 0 <= c -> 0 <= k -> Rabs (x - y) <= k * e * c -> Rabs y <= c -> Rabs (dd - d) <= 6 / 5 * e * d ->
  Rabs (x / dd - y / d) <= (k + 6 / 5) * (101 / 100) * e * (c / d).
Proof.
  intros He Hs Hd Hc Hk H Hy HD. assert (D : 998 / 1000 * d <= dd). { apply Rabs_le_inv in HD. assert (6 / 5 * e * d <= 2 / 1000 * d) by (apply Rmult_le_compat_r; lra). lra. }
  assert (P : 0 < dd) by lra.
  replace (x / dd - y / d) with (((x - y) + y * ((d - dd) / d)) / dd) by (field; lra). unfold Rdiv at 1. rewrite Rabs_mult, (Rabs_pos_eq (/ dd)) by (left; apply Rinv_0_lt_compat; exact P).
  assert (N : Rabs (x - y + y * ((d - dd) / d)) <= (k + 6 / 5) * e * c).
  { eapply Rle_trans; [apply Rabs_triang|]. rewrite Rabs_mult. unfold Rdiv at 1. rewrite Rabs_mult, (Rabs_pos_eq (/ d)) by (left; apply Rinv_0_lt_compat; exact Hd). rewrite Rabs_minus_sym in HD.
    assert (Rabs (d - dd) * / d <= 6 / 5 * e). { apply (Rmult_le_reg_r d); [exact Hd|]. rewrite Rmult_assoc, Rinv_l, Rmult_1_r by lra. exact HD. }
    assert (0 <= Rabs (d - dd) * / d) by (apply Rmult_le_pos; [apply Rabs_pos|left; apply Rinv_0_lt_compat; exact Hd]).
    assert (Rabs y * (Rabs (d - dd) * / d) <= c * (6 / 5 * e)) by (apply Rmult_le_compat; [apply Rabs_pos|assumption|assumption|assumption]). lra. }
  apply Rle_trans with ((k + 6 / 5) * e * c * / dd). { apply Rmult_le_compat_r; [left; apply Rinv_0_lt_compat; exact P|exact N]. }
  assert (I : / dd <= 101 / 100 * / d). { apply (Rmult_le_reg_r (dd * d)); [apply Rmult_lt_0_compat; assumption|]. replace (/ dd * (dd * d)) with d by (field; lra). replace (101 / 100 * / d * (dd * d)) with (101 / 100 * dd) by (field; lra). lra. }
  replace ((k + 6 / 5) * (101 / 100) * e * (c / d)) with ((k + 6 / 5) * e * c * (101 / 100 * / d)) by (unfold Rdiv; ring).
  apply Rmult_le_compat_l; [|exact I]. apply Rmult_le_pos; [|exact Hc]. apply Rmult_le_pos; lra.
Qed.

Lemma sum_step e k (f64 f w : nat -> R) n : unit_roundoff <= e -> e <= / 1000 -> 0 <= k -> (forall i, (i < n)%nat -> Rabs (f64 i - f i) <= k * e * w i /\ Rabs (f i) <= w i /\ tiny <= w i) ->
  (k + 6 / 5 * INR n) * e <= / 10 -> Rabs (sum64 (map f64 (seq 0 n)) - Rsum n f) <= (k + 6 / 5 * INR n) * e * Rsum n w.
Proof.
  intros He Hs Hk. pose proof roundoff_pos as U. induction n as [|n IH]; intros H Hn.
  - cbn. rewrite Rminus_0_r, Rabs_R0. lra.
  - rewrite S_INR in *. assert (E : sum64 (map f64 (seq 0 (S n))) = fl (sum64 (map f64 (seq 0 n)) + f64 n)). { rewrite seq_S, map_app. unfold sum64. rewrite fold_left_app. reflexivity. }
    rewrite E, !Rsum_Sr. assert (Hn' : (k + 6 / 5 * INR n) * e <= / 10) by nra. specialize (IH (fun i Hi => H i (Nat.lt_lt_succ_r _ _ Hi)) Hn'). destruct (H n (Nat.lt_succ_diag_r n)) as (A & B & T).
    assert (W : 0 <= Rsum n w). { apply Rsum_nonneg. intros i Hi. destruct (H i (Nat.lt_lt_succ_r _ _ Hi)) as (_ & _ & T'). pose proof tiny_pos. lra. }
    assert (Fw : Rabs (Rsum n f) <= Rsum n w). { eapply Rle_trans; [apply Rsum_abs|]. apply Rsum_le. intros i Hi. apply H. lia. }
    replace (k + 6 / 5 * (INR n + 1)) with (k + 6 / 5 * INR n + 6 / 5) by ring. apply fl_step; try assumption.
    + replace (sum64 (map f64 (seq 0 n)) + f64 n - (Rsum n f + f n)) with ((sum64 (map f64 (seq 0 n)) - Rsum n f) + (f64 n - f n)) by ring.
      eapply Rle_trans; [apply Rabs_triang|]. rewrite Rmult_plus_distr_l. apply Rplus_le_compat; [exact IH|]. eapply Rle_trans; [exact A|]. apply Rmult_le_compat_r; [pose proof tiny_pos; lra|]. apply Rmult_le_compat_r; [lra|]. pose proof (pos_INR n). lra.
    + eapply Rle_trans; [apply Rabs_triang|]. lra.
    + lra.
Qed.

(** The coefficients of the radial polynomials add up, without their signs, to Delannoy numbers. *)
Definition dlan (a b : nat) : R := Rsum (S b) (fun s => bin (a + b - s) a * bin a s).
Lemma dlan_0l b : dlan 0 b = 1.
Proof.
  unfold dlan. rewrite Rsum_Sl. rewrite Rsum_0. 2:{ intros i Hi. rewrite (bin_gt 0 (S i)) by lia. ring. }
  replace (0 + b - 0)%nat with b by lia. replace (bin b 0) with 1 by (destruct b; reflexivity). cbn. ring.
Qed.
Lemma dlan_0r a : dlan a 0 = 1.
Proof. unfold dlan. rewrite Rsum_Sl. cbn [Rsum]. replace (a + 0 - 0)%nat with a by lia. rewrite bin_n. replace (bin a 0) with 1 by (destruct a; reflexivity). ring. Qed.
Lemma bin_S n k : bin (S n) (S k) = bin n k + bin n (S k). Proof. reflexivity. Qed.
Lemma dlan_S a b : dlan (S a) (S b) = dlan a (S b) + dlan (S a) b + dlan a b.
Proof.
  unfold dlan. rewrite (Rsum_ext (S (S b)) (fun s => bin (S a + S b - s) (S a) * bin (S a) s) (fun s => bin (a + S b - s) a * bin (S a) s + bin (S a + b - s) (S a) * bin (S a) s)).
  2:{ intros s Hs. replace (S a + S b - s)%nat with (S (S a + b - s)) by lia. rewrite bin_S. replace (a + S b - s)%nat with (S a + b - s)%nat by lia. ring. }
  rewrite Rsum_plus. rewrite (Rsum_Sr (S b) (fun s => bin (S a + b - s) (S a) * bin (S a) s)). rewrite (bin_gt (S a + b - S b) (S a)) by lia.
  rewrite (Rsum_Sl (S b) (fun s => bin (a + S b - s) a * bin (S a) s)), (Rsum_Sl (S b) (fun s => bin (a + S b - s) a * bin a s)).
  rewrite (Rsum_ext (S b) (fun i => bin (a + S b - S i) a * bin (S a) (S i)) (fun i => bin (a + S b - S i) a * bin a (S i) + bin (a + b - i) a * bin a i)).
  2:{ intros i Hi. rewrite bin_S. replace (a + S b - S i)%nat with (a + b - i)%nat by lia. ring. }
  rewrite Rsum_plus. replace (bin (S a) 0) with 1 by reflexivity. replace (bin a 0) with 1 by (destruct a; reflexivity). ring.
Qed.
Lemma dlan_bound a b : dlan a b <= (5 / 2) ^ (a + b).
Proof.
  assert (G : forall n a b, (a + b <= n)%nat -> dlan a b <= (5 / 2) ^ (a + b)).
  { clear. induction n as [|n IH]; intros a b H.
    - replace a with 0%nat by lia. replace b with 0%nat by lia. rewrite dlan_0l. cbn. lra.
    - destruct a as [|a]; [rewrite dlan_0l; apply pow_R1_Rle; lra|]. destruct b as [|b]; [rewrite dlan_0r; apply pow_R1_Rle; lra|].
      rewrite dlan_S. pose proof (IH a (S b) ltac:(lia)). pose proof (IH (S a) b ltac:(lia)). pose proof (IH a b ltac:(lia)).
      replace (S a + S b)%nat with (S (S (a + b))) by lia. replace (a + S b)%nat with (S (a + b)) in * by lia. replace (S a + b)%nat with (S (a + b)) in * by lia. cbn [pow] in *. pose proof (pow_lt (5 / 2) (a + b) ltac:(lra)). lra. }
  apply (G (a + b)%nat). lia.
Qed.
Lemma bin_ge1 n : forall k, (k <= n)%nat -> 1 <= bin n k.
Proof.
  induction n as [|n IH]; intros [|k] H; try (cbn; lra); try lia. rewrite bin_S. pose proof (IH k ltac:(lia)). destruct (Nat.eq_dec k n) as [->|]; [rewrite (bin_gt n (S n)) by lia; lra|]. pose proof (IH (S k) ltac:(lia)). lra.
Qed.
Lemma coeff_bin a b s : (s <= b)%nat -> (b <= a)%nat -> INR (fact (a + b - s)) / (INR (fact s) * INR (fact (a - s)) * INR (fact (b - s))) = bin (a + b - s) a * bin a s.
Proof.
  intros H H'. rewrite (bin_quot (a + b - s) a), (bin_quot a s) by lia. replace (a + b - s - a)%nat with (b - s)%nat by lia.
  field. repeat split; apply INR_fact_neq_0.
Qed.
