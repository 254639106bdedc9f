(** Ellipsoidal correction, gravity model, actuator layout. *)
From Coq Require Import List Psatz.
From Verif Require Import PyBase PyLib Num MMath MAperture MFs MAct SAct SAct2 PPhase PAct PAct3.
From Coquelicot Require Import Coquelicot.
Import ListNotations.
Open Scope R_scope.

(** ** The correction *)
Definition slope (a b r : R) : R := b ^ 2 / a * sqrt (1 - r ^ 2 / b ^ 2) / r.
Lemma ratio_le a b r : 0 < a -> 0 < b -> 0 <= r <= b -> 0 <= 1 - r ^ 2 / b ^ 2 <= 1.
Proof.
  intros Ha Hb Hr. assert (0 < b ^ 2) by nra. split.
  - assert (r ^ 2 / b ^ 2 <= 1); [|lra]. apply Rmult_le_reg_r with (b ^ 2); [assumption|]. unfold Rdiv. rewrite Rmult_assoc, Rinv_l by lra. nra.
  - assert (0 <= r ^ 2 / b ^ 2); [|lra]. apply Rmult_le_pos; [nra|]. left. apply Rinv_0_lt_compat. assumption.
Qed.
Lemma slope_nonneg a b r : 0 < a -> 0 < b -> 0 < r -> 0 <= slope a b r.
Proof.
  intros Ha Hb Hr. unfold slope. apply Rmult_le_pos; [|left; apply Rinv_0_lt_compat; assumption].
  apply Rmult_le_pos; [|apply sqrt_pos]. apply Rmult_le_pos; [nra|]. left. apply Rinv_0_lt_compat. assumption.
Qed.
Lemma eac_inside a b r : 0 < a -> 0 < b -> 0 < r <= b -> eac a b r = Fin (sin (atan (slope a b r))).
Proof.
  intros Ha Hb Hr. pose proof (ratio_le a b r Ha Hb ltac:(lra)) as Hq. unfold eac. cbn [nsqrt].
  destruct (Rle_dec 0 (1 - r ^ 2 / b ^ 2)); [|lra]. cbn [nmul ndiv]. destruct (Req_EM_T r 0); [lra|].
  cbn [nabs natan nsin]. fold (slope a b r). rewrite Rabs_right by (apply Rle_ge; apply slope_nonneg; lra). reflexivity.
Qed.
Lemma eac_axis a b : 0 < a -> 0 < b -> eac a b 0 = Fin 1.
Proof.
  intros Ha Hb. unfold eac. replace (1 - 0 ^ 2 / b ^ 2) with 1 by (field; lra). cbn [nsqrt].
  destruct (Rle_dec 0 1); [|lra]. rewrite sqrt_1. cbn [nmul ndiv]. destruct (Req_EM_T 0 0); [|lra].
  unfold inf_sign. assert (0 < b ^ 2 / a * 1). { rewrite Rmult_1_r. apply Rdiv_lt_0_compat; nra. }
  destruct (Rlt_dec 0 (b ^ 2 / a * 1)); [|lra]. cbn. rewrite sin_PI2. reflexivity.
Qed.
Lemma eac_rim a b : 0 < a -> 0 < b -> eac a b b = Fin 0.
Proof.
  intros Ha Hb. rewrite eac_inside by lra. unfold slope. replace (1 - b ^ 2 / b ^ 2) with 0 by (field; lra). rewrite sqrt_0.
  replace (b ^ 2 / a * 0 / b) with 0 by (field; lra). rewrite atan_0, sin_0. reflexivity.
Qed.
Lemma eac_beyond a b r : 0 < b -> b < r -> eac a b r = NaN.
Proof.
  intros Hb Hr. unfold eac. cbn [nsqrt]. assert (1 - r ^ 2 / b ^ 2 < 0).
  { assert (1 < r ^ 2 / b ^ 2); [|lra]. apply Rmult_lt_reg_r with (b ^ 2); [nra|]. unfold Rdiv. rewrite Rmult_assoc, Rinv_l by nra. nra. }
  destruct (Rle_dec 0 (1 - r ^ 2 / b ^ 2)); [lra|]. reflexivity.
Qed.
Lemma ellipse_derive a b r : 0 < a -> 0 < b -> 0 <= r < b ->
  is_derive (ellipse a b) r (- (a * r / (b ^ 2 * sqrt (1 - r ^ 2 / b ^ 2)))).
Proof.
  intros Ha Hb Hr. assert (Hq : 0 < 1 - r ^ 2 / b ^ 2).
  { assert (r ^ 2 / b ^ 2 < 1); [|lra]. apply Rmult_lt_reg_r with (b ^ 2); [nra|]. unfold Rdiv. rewrite Rmult_assoc, Rinv_l by nra. nra. }
  unfold ellipse. auto_derive.
  - exact Hq.
  - replace (1 + - (r * (r * 1) * / (b * (b * 1)))) with (1 - r ^ 2 / b ^ 2) by (cbn; unfold Rdiv; ring).
    assert (sqrt (1 - r ^ 2 / b ^ 2) <> 0) by (apply Rgt_not_eq; apply sqrt_lt_R0; exact Hq). field. split; [assumption|lra].
Qed.
Lemma eac_tilt a b r : 0 < a -> 0 < b -> 0 < r < b ->
  ex_derive (ellipse a b) r /\ eac a b r = Fin (1 / sqrt (1 + Derive (ellipse a b) r ^ 2)).
Proof.
  intros Ha Hb Hr. pose proof (ellipse_derive a b r Ha Hb ltac:(lra)) as HD. split; [eexists; exact HD|].
  rewrite (is_derive_unique _ _ _ HD). rewrite eac_inside by lra. f_equal. rewrite sin_atan. unfold slope.
  assert (Hq : 0 < 1 - r ^ 2 / b ^ 2).
  { assert (r ^ 2 / b ^ 2 < 1); [|lra]. apply Rmult_lt_reg_r with (b ^ 2); [nra|]. unfold Rdiv. rewrite Rmult_assoc, Rinv_l by nra. nra. }
  set (q := 1 - r ^ 2 / b ^ 2) in *. assert (Hs : 0 < sqrt q) by (apply sqrt_lt_R0; exact Hq).
  set (m := b ^ 2 / a * sqrt q / r). assert (Hm : 0 < m).
  { unfold m. apply Rdiv_lt_0_compat; [|lra]. apply Rmult_lt_0_compat; [|exact Hs]. apply Rdiv_lt_0_compat; nra. }
  replace (- (a * r / (b ^ 2 * sqrt q))) with (- / m) by (unfold m; field; repeat split; nra).
  assert (E : sqrt (1 + m²) = m * sqrt (1 + (- / m) ^ 2)).
  { rewrite <- (sqrt_square m) at 2 by lra. rewrite <- sqrt_mult by nra. f_equal. unfold Rsqr. field. lra. }
  rewrite E. assert (0 < sqrt (1 + (- / m) ^ 2)) by (apply sqrt_lt_R0; nra). field. split; lra.
Qed.
Lemma eac_tilt_std a b r : 0 < a -> 0 < b -> 0 < r < b ->
  exists d, derivable_pt_lim (ellipse a b) r d /\ eac a b r = Fin (1 / sqrt (1 + d ^ 2)).
Proof. intros Ha Hb Hr. destruct (eac_tilt a b r Ha Hb Hr) as [E V]. exists (Derive (ellipse a b) r). split; [|exact V]. apply is_derive_Reals, Derive_correct, E. Qed.
Lemma slope_decreasing a b r r' : 0 < a -> 0 < b -> 0 < r < r' -> r' <= b -> slope a b r' < slope a b r.
Proof.
  intros Ha Hb Hr Hb'. pose proof (ratio_le a b r' Ha Hb ltac:(lra)) as Hq.
  assert (Hqq : 1 - r' ^ 2 / b ^ 2 < 1 - r ^ 2 / b ^ 2).
  { assert (r ^ 2 / b ^ 2 < r' ^ 2 / b ^ 2); [|lra]. apply Rmult_lt_compat_r; [apply Rinv_0_lt_compat; nra|nra]. }
  assert (Hs : sqrt (1 - r' ^ 2 / b ^ 2) < sqrt (1 - r ^ 2 / b ^ 2)) by (apply sqrt_lt_1; lra).
  pose proof (sqrt_pos (1 - r' ^ 2 / b ^ 2)) as Hp. unfold slope.
  assert (Hk : 0 < b ^ 2 / a) by (apply Rdiv_lt_0_compat; nra).
  assert (Hi : / r' < / r) by (apply Rinv_lt_contravar; nra). assert (0 < / r') by (apply Rinv_0_lt_compat; lra).
  unfold Rdiv. rewrite !Rmult_assoc. do 2 (apply Rmult_lt_compat_l; [first [nra | apply Rinv_0_lt_compat; assumption]|]). nra.
Qed.
Lemma sin_atan_range m : 0 <= m -> 0 <= sin (atan m) < 1.
Proof.
  intros Hm. pose proof (atan_bound m) as B. assert (0 <= atan m).
  { destruct Hm as [Hm|<-]; [|rewrite atan_0; lra]. rewrite <- atan_0. left. apply atan_increasing. assumption. }
  split; [apply sin_ge_0; lra|]. rewrite <- sin_PI2. apply sin_increasing_1; lra.
Qed.
Lemma eac_decreasing a b r r' : 0 < a -> 0 < b -> 0 <= r < r' -> r' <= b ->
  exists c c', eac a b r = Fin c /\ eac a b r' = Fin c' /\ 0 <= c' < c /\ c <= 1.
Proof.
  intros Ha Hb Hr Hr'. rewrite (eac_inside a b r') by lra.
  pose proof (sin_atan_range (slope a b r') ltac:(apply slope_nonneg; lra)) as S'.
  destruct (Req_dec r 0) as [->|N].
  - rewrite eac_axis by lra. do 2 eexists. split; [reflexivity|]. split; [reflexivity|]. lra.
  - rewrite (eac_inside a b r) by lra. do 2 eexists. split; [reflexivity|]. split; [reflexivity|].
    pose proof (sin_atan_range (slope a b r) ltac:(apply slope_nonneg; lra)) as S.
    split; [|lra]. split; [lra|]. pose proof (slope_decreasing a b r r' Ha Hb ltac:(lra) Hr') as D.
    pose proof (atan_bound (slope a b r)). pose proof (atan_bound (slope a b r')). pose proof (atan_increasing _ _ D).
    apply sin_increasing_1; lra.
Qed.
Lemma eac_range a b r : 0 < a -> 0 < b -> 0 <= r <= b -> exists c, eac a b r = Fin c /\ 0 <= c <= 1.
Proof.
  intros Ha Hb Hr. destruct (Req_dec r 0) as [->|N]; [exists 1; split; [apply eac_axis; lra|lra]|].
  rewrite eac_inside by lra. eexists. split; [reflexivity|]. pose proof (sin_atan_range (slope a b r) ltac:(apply slope_nonneg; lra)). lra.
Qed.

(** ** Gravity *)
Lemma grav_ok g0 g1 g2 t alpha : grav_deformation (g0 :: g1 :: g2 :: t) alpha = Ok (g0 * sin (angle_value alpha) + g1 * cos (angle_value alpha) + g2).
Proof. reflexivity. Qed.
Lemma grav_short g alpha : (length g < 3)%nat -> grav_deformation g alpha = Err IndexError.
Proof. intros H. destruct g as [|a [|b [|c t]]]; cbn in *; try reflexivity. lia. Qed.
Lemma grav_linear g g' s t alpha K K' : length g = 3%nat -> length g' = 3%nat -> grav_deformation g alpha = Ok K -> grav_deformation g' alpha = Ok K' ->
  grav_deformation (map2 (fun a b => s * a + t * b) g g') alpha = Ok (s * K + t * K').
Proof.
  intros L L'. destruct g as [|a [|b [|c [|]]]]; try discriminate. destruct g' as [|a' [|b' [|c' [|]]]]; try discriminate.
  cbn [map2]. rewrite !grav_ok. intros H H'. apply Ok_inj in H, H'. subst. f_equal. ring.
Qed.
Lemma grav_degrees g x : grav_deformation g (Deg x) = grav_deformation g (Rad (x * (PI / 180))).
Proof. reflexivity. Qed.
Lemma grav_plain g x : grav_deformation g (Plain x) = grav_deformation g (Rad x).
Proof. reflexivity. Qed.
Lemma grav_period g x (k : Z) : grav_deformation g (Deg (x + 360 * IZR k)) = grav_deformation g (Deg x).
Proof.
  unfold grav_deformation. cbn [angle_value]. unfold deg2rad.
  replace ((x + 360 * IZR k) * (PI / 180)) with (x * (PI / 180) + IZR k * (2 * PI)) by field.
  rewrite sin_add_2kPI, cos_add_2kPI. reflexivity.
Qed.
Lemma half_diff a b : a <> b -> Rabs (a - b) < 2 * PI -> sin ((a - b) / 2) <> 0.
Proof.
  intros N H. unfold Rabs in H. destruct (Rcase_abs (a - b)) as [C|C].
  - pose proof (sin_lt_0_var ((a - b) / 2)). pose proof PI_RGT_0. lra.
  - pose proof (sin_gt_0 ((a - b) / 2)). pose proof PI_RGT_0. lra.
Qed.
Lemma three_points a b c d0 d1 d2 : a <> b -> a <> c -> b <> c ->
  Rabs (a - b) < 2 * PI -> Rabs (a - c) < 2 * PI -> Rabs (b - c) < 2 * PI ->
  d0 * sin a + d1 * cos a + d2 = 0 -> d0 * sin b + d1 * cos b + d2 = 0 -> d0 * sin c + d1 * cos c + d2 = 0 ->
  d0 = 0 /\ d1 = 0 /\ d2 = 0.
Proof.
  intros Nab Nac Nbc Hab Hac Hbc Ea Eb Ec.
  pose proof (half_diff a b Nab Hab) as S1. pose proof (half_diff a c Nac Hac) as S2. pose proof (half_diff b c Nbc Hbc) as S3.
  assert (E1 : d0 * cos ((a + b) / 2) - d1 * sin ((a + b) / 2) = 0).
  { assert (P : 2 * sin ((a - b) / 2) * (d0 * cos ((a + b) / 2) - d1 * sin ((a + b) / 2)) = 0).
    { transitivity (d0 * (sin a - sin b) + d1 * (cos a - cos b)); [rewrite form4, form2; ring|lra]. }
    apply Rmult_integral in P. destruct P as [P|P]; [lra|exact P]. }
  assert (E2 : d0 * cos ((a + c) / 2) - d1 * sin ((a + c) / 2) = 0).
  { assert (P : 2 * sin ((a - c) / 2) * (d0 * cos ((a + c) / 2) - d1 * sin ((a + c) / 2)) = 0).
    { transitivity (d0 * (sin a - sin c) + d1 * (cos a - cos c)); [rewrite form4, form2; ring|lra]. }
    apply Rmult_integral in P. destruct P as [P|P]; [lra|exact P]. }
  assert (D : sin ((a + b) / 2) * cos ((a + c) / 2) - cos ((a + b) / 2) * sin ((a + c) / 2) = sin ((b - c) / 2)).
  { rewrite <- sin_minus. f_equal. field. }
  assert (Z0 : d0 = 0).
  { assert (P : d0 * sin ((b - c) / 2) = 0).
    { rewrite <- D. transitivity (sin ((a + b) / 2) * (d0 * cos ((a + c) / 2) - d1 * sin ((a + c) / 2)) - sin ((a + c) / 2) * (d0 * cos ((a + b) / 2) - d1 * sin ((a + b) / 2))); [ring|rewrite E1, E2; ring]. }
    apply Rmult_integral in P. tauto. }
  assert (Z1 : d1 = 0).
  { assert (P : d1 * sin ((b - c) / 2) = 0).
    { rewrite <- D. transitivity (cos ((a + b) / 2) * (d0 * cos ((a + c) / 2) - d1 * sin ((a + c) / 2)) - cos ((a + c) / 2) * (d0 * cos ((a + b) / 2) - d1 * sin ((a + b) / 2))); [ring|rewrite E1, E2; ring]. }
    apply Rmult_integral in P. tauto. }
  subst. repeat split; lra.
Qed.
Lemma grav_unique g g' a b c : length g = 3%nat -> length g' = 3%nat ->
  (forall x y, In (x, y) [(a, b); (a, c); (b, c)] -> angle_value x <> angle_value y /\ Rabs (angle_value x - angle_value y) < 2 * PI) ->
  grav_deformation g a = grav_deformation g' a -> grav_deformation g b = grav_deformation g' b -> grav_deformation g c = grav_deformation g' c ->
  g = g'.
Proof.
  intros L L' H. destruct g as [|x [|y [|z [|]]]]; try discriminate. destruct g' as [|x' [|y' [|z' [|]]]]; try discriminate.
  rewrite !grav_ok. intros Ea Eb Ec. apply Ok_inj in Ea, Eb, Ec.
  pose proof (H a b ltac:(cbn; auto)) as [N1 H1]. pose proof (H a c ltac:(cbn; auto)) as [N2 H2]. pose proof (H b c ltac:(cbn; auto)) as [N3 H3].
  destruct (three_points (angle_value a) (angle_value b) (angle_value c) (x - x') (y - y') (z - z')) as (P & Q & S); try assumption; try lra.
  repeat f_equal; lra.
Qed.

(** ** Layout *)
Lemma ring_cases i : (i < 4)%nat -> ring_radius i = 3250 / 1000 \/ ring_radius i = 2600 / 1000 \/ ring_radius i = 1880 / 1000 \/ ring_radius i = 1210 / 1000.
Proof. intros H. unfold ring_radius. destruct i as [|[|[|[|]]]]; cbn; auto; lia. Qed.
Lemma ring_pos i : (i < 4)%nat -> 0 < ring_radius i <= 3250 / 1000.
Proof. intros H. pose proof (ring_cases i H). lra. Qed.
Lemma ring_inj i j : (i < 4)%nat -> (j < 4)%nat -> ring_radius i = ring_radius j -> i = j.
Proof. intros Hi Hj. unfold ring_radius. destruct i as [|[|[|[|]]]]; try lia; destruct j as [|[|[|[|]]]]; try lia; cbn; intros; try reflexivity; exfalso; lra. Qed.
Lemma cos_sin_sq r t : (r * cos t) ^ 2 + (r * sin t) ^ 2 = r ^ 2.
Proof. pose proof (sin2_cos2 t) as H. unfold Rsqr in H. nra. Qed.
Lemma act_within n : (n < 96)%nat -> (nth n act_x 0) ^ 2 + (nth n act_y 0) ^ 2 <= (3250 / 1000) ^ 2.
Proof.
  intros H. pose proof (Nat.div_mod n 24 ltac:(lia)) as E. pose proof (Nat.mod_upper_bound n 24 ltac:(lia)).
  assert (n / 24 < 4)%nat by (apply Nat.div_lt_upper_bound; lia).
  rewrite E. destruct (act_position (n / 24) (n mod 24)) as [-> ->]; [assumption..|]. rewrite cos_sin_sq. pose proof (ring_pos (n / 24) ltac:(assumption)). nra.
Qed.
Lemma act_distinct n m : (n < 96)%nat -> (m < 96)%nat -> nth n act_x 0 = nth m act_x 0 -> nth n act_y 0 = nth m act_y 0 -> n = m.
Proof.
  intros Hn Hm. pose proof (Nat.div_mod n 24 ltac:(lia)) as En. pose proof (Nat.mod_upper_bound n 24 ltac:(lia)).
  pose proof (Nat.div_mod m 24 ltac:(lia)) as Em. pose proof (Nat.mod_upper_bound m 24 ltac:(lia)).
  assert (Hn4 : (n / 24 < 4)%nat) by (apply Nat.div_lt_upper_bound; lia). assert (Hm4 : (m / 24 < 4)%nat) by (apply Nat.div_lt_upper_bound; lia).
  set (i := (n / 24)%nat) in *. set (k := (n mod 24)%nat) in *. set (j := (m / 24)%nat) in *. set (l := (m mod 24)%nat) in *. clearbody i j k l. subst n m.
  destruct (act_position i k) as [-> ->]; [assumption..|]. destruct (act_position j l) as [-> ->]; [assumption..|]. intros Hx Hy.
  pose proof (cos_sin_sq (ring_radius i) (ring_angle k)) as Q. rewrite Hx, Hy, cos_sin_sq in Q.
  pose proof (ring_pos i Hn4). pose proof (ring_pos j Hm4). assert (ER : ring_radius i = ring_radius j) by nra.
  apply ring_inj in ER; [|assumption..]. subst j.
  destruct (angle_period (ring_angle k) (ring_angle l)) as [q Hq].
  - apply Rmult_eq_reg_l with (ring_radius i); lra.
  - apply Rmult_eq_reg_l with (ring_radius i); lra.
  - unfold ring_angle in Hq. pose proof PI_RGT_0.
    assert (E : 15 * INR k = 15 * INR l + 360 * IZR q). { apply Rmult_eq_reg_r with (PI / 180); lra. }
    rewrite !INR_IZR_INZ in E. rewrite <- !mult_IZR, <- plus_IZR in E. apply eq_IZR in E. lia.
Qed.
(** A quarter turn moves actuator k of a ring to actuator k + 6. *)
Lemma act_quarter i k : (i < 4)%nat -> (k < 24)%nat ->
  let n := (24 * i + k)%nat in let n' := (24 * i + (k + 6) mod 24)%nat in
  (n' < 96)%nat /\ nth n' act_x 0 = - nth n act_y 0 /\ nth n' act_y 0 = nth n act_x 0.
Proof.
  intros Hi Hk. cbv zeta. pose proof (Nat.mod_upper_bound (k + 6) 24 ltac:(lia)) as B. split; [lia|].
  destruct (act_position i ((k + 6) mod 24)) as [-> ->]; [assumption..|]. destruct (act_position i k) as [-> ->]; [assumption..|].
  assert (E : exists q : Z, ring_angle ((k + 6) mod 24) = PI / 2 + ring_angle k + IZR q * (2 * PI)).
  { pose proof (Nat.div_mod (k + 6) 24 ltac:(lia)) as D. exists (- Z.of_nat ((k + 6) / 24))%Z. unfold ring_angle.
    assert (D' : INR (k + 6) = 24 * INR ((k + 6) / 24) + INR ((k + 6) mod 24)).
    { rewrite D at 1. rewrite plus_INR, mult_INR. f_equal. f_equal. cbn; lra. }
    rewrite plus_INR in D'. replace (INR 6) with 6 in D' by (cbn; lra). rewrite opp_IZR, <- INR_IZR_INZ.
    replace (INR ((k + 6) mod 24)) with (INR k + 6 - 24 * INR ((k + 6) / 24)) by lra. field. }
  destruct E as [q ->]. rewrite cos_add_2kPI, sin_add_2kPI. rewrite cos_plus, sin_plus, cos_PI2, sin_PI2. split; ring.
Qed.
