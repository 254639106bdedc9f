(** C15: cart2pol. *)
From Verif Require Import PyBase Sums PyLib Num MMath.
Open Scope R_scope.

Lemma sqrt_sq_sum x y : x <> 0 -> sqrt (x ^ 2 + y ^ 2) = Rabs x * sqrt (1 + (y / x)²).
Proof.
  intros Hx. rewrite <- sqrt_Rsqr_abs, <- sqrt_mult_alt by apply Rle_0_sqr. f_equal. unfold Rsqr. field. assumption.
Qed.

Lemma sqrt1_pos z : 0 < sqrt (1 + z²).
Proof. apply sqrt_lt_R0. pose proof (Rle_0_sqr z). lra. Qed.

Lemma cart2pol_cos x y : sqrt (x ^ 2 + y ^ 2) * cos (arctan2 y x) = x.
Proof.
  unfold arctan2. destruct (Rlt_dec 0 x).
  - rewrite cos_atan, sqrt_sq_sum, Rabs_pos_eq by lra. pose proof (sqrt1_pos (y / x)). field; lra.
  - destruct (Rlt_dec x 0).
    + pose proof (sqrt1_pos (y / x)). rewrite sqrt_sq_sum, Rabs_left by lra.
      destruct (Rle_dec 0 y).
      * rewrite neg_cos, cos_atan. field; lra.
      * replace (atan (y / x) - PI) with (- (PI - atan (y / x))) by ring. rewrite cos_neg.
        rewrite Rtrigo_facts.cos_pi_minus, cos_atan. field; lra.
    + assert (x = 0) by lra. subst x. destruct (Rlt_dec 0 y); [rewrite cos_PI2; ring|].
      destruct (Rlt_dec y 0); [rewrite cos_neg, cos_PI2; ring|]. assert (y = 0) by lra. subst y.
      replace (0 ^ 2 + 0 ^ 2) with 0 by ring. rewrite sqrt_0; ring.
Qed.

Lemma cart2pol_sin x y : sqrt (x ^ 2 + y ^ 2) * sin (arctan2 y x) = y.
Proof.
  unfold arctan2. destruct (Rlt_dec 0 x).
  - rewrite sin_atan, sqrt_sq_sum, Rabs_pos_eq by lra. pose proof (sqrt1_pos (y / x)). field; lra.
  - destruct (Rlt_dec x 0).
    + pose proof (sqrt1_pos (y / x)). rewrite sqrt_sq_sum, Rabs_left by lra.
      destruct (Rle_dec 0 y).
      * rewrite neg_sin, sin_atan. field; lra.
      * replace (atan (y / x) - PI) with (- (PI - atan (y / x))) by ring. rewrite sin_neg.
        rewrite Rtrigo_facts.sin_pi_minus, sin_atan. field; lra.
    + assert (x = 0) by lra. subst x. destruct (Rlt_dec 0 y).
      * rewrite sin_PI2. replace (0 ^ 2 + y ^ 2) with (y * y) by ring. rewrite sqrt_square by lra. ring.
      * destruct (Rlt_dec y 0).
        -- rewrite sin_neg, sin_PI2. replace (0 ^ 2 + y ^ 2) with ((- y) * (- y)) by ring. rewrite sqrt_square by lra. ring.
        -- assert (y = 0) by lra. subst y. rewrite sin_0; ring.
Qed.

Lemma arctan2_range x y : - PI < arctan2 y x <= PI.
Proof.
  pose proof PI_RGT_0. unfold arctan2. destruct (Rlt_dec 0 x).
  - pose proof (atan_bound (y / x)). lra.
  - destruct (Rlt_dec x 0).
    + pose proof (atan_bound (y / x)). destruct (Rle_dec 0 y).
      * split; [lra|]. assert (y / x <= 0). { unfold Rdiv. apply Rmult_le_0_l || idtac. assert (/ x < 0) by (apply Rinv_lt_0_compat; lra). nra. }
        destruct (Req_dec (y / x) 0) as [->|Hn]; [rewrite atan_0; lra|].
        assert (atan (y / x) < atan 0) by (apply atan_increasing; lra). rewrite atan_0 in H2. lra.
      * split; [|lra]. assert (0 < y / x). { unfold Rdiv. assert (/ x < 0) by (apply Rinv_lt_0_compat; lra). nra. }
        assert (atan 0 < atan (y / x)) by (apply atan_increasing; lra). rewrite atan_0 in H2. lra.
    + destruct (Rlt_dec 0 y); [lra|]. destruct (Rlt_dec y 0); lra.
Qed.

(** cos and sin determine an angle in (-pi, pi]. *)
Lemma angle_unique s t : - PI < s <= PI -> - PI < t <= PI -> cos s = cos t -> sin s = sin t -> s = t.
Proof.
  intros Hs Ht Hc Hsn. pose proof PI_RGT_0.
  assert (E1 : cos (s - t) = 1).
  { rewrite cos_minus, Hc, Hsn. pose proof (sin2_cos2 t) as E. unfold Rsqr in E. lra. }
  assert (E2 : sin ((s - t) / 2) = 0).
  { replace (s - t) with (2 * ((s - t) / 2)) in E1 by field. rewrite cos_2a_sin in E1. nra. }
  destruct (sin_eq_0_0 _ E2) as [k Hk].
  assert (- PI < IZR k * PI < PI) by (rewrite <- Hk; lra).
  assert (k = 0)%Z.
  { assert (IZR k < 1) by nra. assert (-1 < IZR k) by nra. apply lt_IZR in H1. apply lt_IZR in H2. lia. }
  subst k. lra.
Qed.

Lemma cart2pol_inverse rho t : 0 < rho -> - PI < t <= PI -> cart2pol (rho * cos t) (rho * sin t) = (rho, t).
Proof.
  intros Hr Ht. unfold cart2pol.
  assert (E : sqrt ((rho * cos t) ^ 2 + (rho * sin t) ^ 2) = rho).
  { replace ((rho * cos t) ^ 2 + (rho * sin t) ^ 2) with (rho * rho * ((sin t)² + (cos t)²)) by (unfold Rsqr; ring).
    rewrite sin2_cos2, Rmult_1_r. apply sqrt_square; lra. }
  f_equal; [exact E|].
  pose proof (cart2pol_cos (rho * cos t) (rho * sin t)) as Hc.
  pose proof (cart2pol_sin (rho * cos t) (rho * sin t)) as Hs. rewrite E in Hc, Hs.
  apply angle_unique; [apply arctan2_range|assumption| |]; apply Rmult_eq_reg_l with rho; lra.
Qed.
