(** C03 (phase half), C11, C12. *)
From Coquelicot Require Import Coquelicot.
From Flocq Require Import Core.Raux.
From Verif Require Import PyBase Sums PyLib Num MZernike PZernike SZernike PRodrigues PBound PDisk PEnum MMath MAperture PPolar PWave PPhase.
Open Scope R_scope.

(** One pixel of the map. *)
Definition pixel (W : R -> R -> R) (pr x y : R) : R :=
  (if Rltb (pr ^ 2) (x ^ 2 + y ^ 2) then 0 else W (sqrt (x ^ 2 + y ^ 2) / pr) (arctan2 y x)) * 2 * PI.

Definition pixel_map W pr resolution : list (list R) :=
  map (fun y => map (fun x => pixel W pr x y) (linspace (- pr) pr resolution)) (linspace (- pr) pr resolution).

Lemma phase_map_unfold K pr resolution : phase_map K pr resolution =
  bind (wavefront K) (fun W => Ok (linspace (- pr) pr resolution, linspace (- pr) pr resolution, pixel_map W pr resolution)).
Proof.
  unfold phase_map, pixel_map. destruct (wavefront K) as [W|e]; cbn [bind]; [|reflexivity].
  f_equal. f_equal. unfold map2d, meshgrid. rewrite map_map. apply map_ext. intros y. rewrite map_map. apply map_ext. intros x. reflexivity.
Qed.

Lemma pixel_map_nth W pr resolution i j : (i < resolution)%nat -> (j < resolution)%nat ->
  nth i (nth j (pixel_map W pr resolution) []) 0 =
  pixel W pr (nth i (linspace (- pr) pr resolution) 0) (nth j (linspace (- pr) pr resolution) 0).
Proof.
  intros Hi Hj. unfold pixel_map.
  rewrite nth_indep with (d' := (fun y => map (fun x => pixel W pr x y) (linspace (- pr) pr resolution)) 0) by (rewrite map_length, linspace_length; assumption).
  rewrite map_nth with (f := fun y => map (fun x => pixel W pr x y) (linspace (- pr) pr resolution)).
  rewrite nth_indep with (d' := (fun x => pixel W pr x (nth j (linspace (- pr) pr resolution) 0)) 0) by (rewrite map_length, linspace_length; assumption).
  rewrite map_nth with (f := fun x => pixel W pr x (nth j (linspace (- pr) pr resolution) 0)). reflexivity.
Qed.

Lemma phase_inv K pr piston tilt resolution x y phi : phase K pr piston tilt resolution = Ok (x, y, phi) ->
  exists K' W, phase_coeffs K piston tilt = Ok K' /\ wavefront K' = Ok W /\
    x = linspace (- pr) pr resolution /\ y = linspace (- pr) pr resolution /\ phi = pixel_map W pr resolution.
Proof.
  rewrite phase_unfold. destruct (phase_coeffs K piston tilt) as [K'|e] eqn:E; cbn [bind]; [|discriminate].
  rewrite phase_map_unfold. destruct (wavefront K') as [W|e] eqn:EW; cbn [bind]; [|discriminate].
  intros H. injection H as <- <- <-. exists K', W. auto.
Qed.

(** C03: bound. *)
Lemma set_nth_abs_sum K i : py_sum (map Rabs (set_nth K i 0)) <= py_sum (map Rabs K).
Proof.
  revert i. induction K as [|k K IH]; intros i; cbn [set_nth map]; [lra|].
  destruct i; cbn [map]; rewrite !py_sum_cons.
  - rewrite Rabs_R0. pose proof (Rabs_pos k). lra.
  - specialize (IH i). lra.
Qed.

Lemma py_set_abs_sum K i K' : py_set K i 0 = Ok K' -> py_sum (map Rabs K') <= py_sum (map Rabs K).
Proof.
  unfold py_set. destruct (Nat.ltb i (length K)); [|discriminate]. intros H; injection H as <-. apply set_nth_abs_sum.
Qed.

Lemma phase_coeffs_abs_sum K piston tilt K' : phase_coeffs K piston tilt = Ok K' ->
  py_sum (map Rabs K') <= py_sum (map Rabs K).
Proof.
  unfold phase_coeffs. intros H.
  destruct (if piston then Ok K else py_set K 0 0) as [K1|e] eqn:E1; cbn [bind] in H; [|discriminate].
  assert (H1 : py_sum (map Rabs K1) <= py_sum (map Rabs K)).
  { destruct piston; [injection E1 as <-; lra|]. eapply py_set_abs_sum; eassumption. }
  destruct tilt; [injection H as <-; exact H1|].
  destruct (py_set K1 1 0) as [K2|e] eqn:E2; cbn [bind] in H; [|discriminate].
  apply py_set_abs_sum in E2. apply py_set_abs_sum in H. lra.
Qed.

Lemma py_sum_abs_nonneg K : 0 <= py_sum (map Rabs K).
Proof. induction K as [|k K IH]; cbn [map]; [unfold py_sum; cbn; lra|]. rewrite py_sum_cons. pose proof (Rabs_pos k). lra. Qed.

Lemma pixel_bound W pr x y B : 0 < pr -> 0 <= B -> (forall rho t, -1 <= rho <= 1 -> Rabs (W rho t) <= B) ->
  Rabs (pixel W pr x y) <= 2 * PI * B.
Proof.
  intros Hpr HB HW. unfold pixel. pose proof PI_RGT_0.
  rewrite !Rabs_mult, (Rabs_right 2), (Rabs_right PI) by lra.
  apply Rle_trans with (B * 2 * PI); [|lra]. rewrite !Rmult_assoc. apply Rmult_le_compat_r; [lra|].
  destruct (Rltb (pr ^ 2) (x ^ 2 + y ^ 2)) eqn:E; [rewrite Rabs_R0; assumption|].
  apply Rltb_false in E. apply HW. split.
  - apply Rle_trans with 0; [lra|]. apply Rmult_le_pos; [apply sqrt_pos|]. left. apply Rinv_0_lt_compat; assumption.
  - apply Rmult_le_reg_r with pr; [assumption|]. unfold Rdiv. rewrite Rmult_assoc, Rinv_l, Rmult_1_r, Rmult_1_l by lra.
    rewrite <- (sqrt_pow2 pr) by lra. apply sqrt_le_1_alt. assumption.
Qed.

Lemma phase_bound K pr piston tilt resolution x y phi : 0 < pr -> phase K pr piston tilt resolution = Ok (x, y, phi) ->
  forall row v, In row phi -> In v row -> Rabs v <= 2 * PI * py_sum (map Rabs K).
Proof.
  intros Hpr H row v Hr Hv. destruct (phase_inv _ _ _ _ _ _ _ _ H) as (K' & W & EK & EW & _ & _ & ->).
  unfold pixel_map in Hr. apply in_map_iff in Hr as (yj & <- & _). apply in_map_iff in Hv as (xi & <- & _).
  apply Rle_trans with (2 * PI * py_sum (map Rabs K')).
  - apply pixel_bound; [assumption|apply py_sum_abs_nonneg|]. intros rho t Hrho. apply (wavefront_bound K' W); assumption.
  - apply Rmult_le_compat_l; [pose proof PI_RGT_0; lra|]. eapply phase_coeffs_abs_sum; eassumption.
Qed.

(** C11. *)
Lemma set_nth_agree (K K' : list R) i v : length K = length K' -> (forall k, k <> i -> nth k K 0 = nth k K' 0) ->
  set_nth K i v = set_nth K' i v.
Proof.
  revert K' i. induction K as [|k K IH]; intros [|k' K'] i HL H; cbn in HL; try lia; [reflexivity|].
  destruct i as [|i]; cbn [set_nth].
  - f_equal. apply nth_ext with 0 0; [lia|]. intros n _. exact (H (S n) ltac:(lia)).
  - f_equal; [exact (H 0%nat ltac:(lia))|]. apply IH; [lia|]. intros n Hn. exact (H (S n) ltac:(lia)).
Qed.

Lemma phase_no_piston K K' pr tilt resolution : length K = length K' -> (forall k, k <> 0%nat -> nth k K 0 = nth k K' 0) ->
  phase K pr false tilt resolution = phase K' pr false tilt resolution.
Proof.
  intros HL H. rewrite !phase_unfold. f_equal. unfold phase_coeffs. f_equal.
  unfold py_set. rewrite HL. destruct (Nat.ltb 0 (length K')); [|reflexivity]. f_equal. apply set_nth_agree; assumption.
Qed.

Lemma phase_no_tilt K K' pr piston resolution : length K = length K' -> (forall k, k <> 1%nat -> k <> 2%nat -> nth k K 0 = nth k K' 0) ->
  phase K pr piston false resolution = phase K' pr piston false resolution.
Proof.
  intros HL H. rewrite !phase_unfold. f_equal.
  destruct K as [|a [|b [|c K]]]; destruct K' as [|a' [|b' [|c' K']]]; cbn in HL; try lia; try (destruct piston; reflexivity).
  assert (a = a') by exact (H 0%nat ltac:(lia) ltac:(lia)). subst a'.
  assert (K = K').
  { apply nth_ext with 0 0; [lia|]. intros n _. exact (H (S (S (S n))) ltac:(lia) ltac:(lia)). }
  subst K'. destruct piston; reflexivity.
Qed.

Lemma series_diff n c c' rho t : (1 <= n)%nat -> (forall i l, (2 <= i)%nat -> c i l = c' i l) ->
  zernike_series n c rho t - zernike_series n c' rho t = zernike_series 1 c rho t - zernike_series 1 c' rho t.
Proof.
  intros Hn H. induction n as [|n IH]; [lia|]. destruct (Nat.eq_dec n 0) as [->|Hn0]; [reflexivity|].
  rewrite !(zernike_series_S n). rewrite <- IH by lia.
  match goal with |- ?a + ?x - (?b + ?y) = _ => replace y with x end; [ring|].
  apply sum_upto_ext. intros k Hk. cbv zeta. rewrite H by lia. reflexivity.
Qed.

Lemma Uval_00 rho t : Uval (0, 0)%Z rho t = 1.
Proof.
  unfold Uval. cbn [fst snd]. destruct (zernike_U_int_form 0 0) as (g & E & _ & Hg). { split; [lia|exists 0%Z; lia]. }
  rewrite E, Hg. unfold ang. cbn -[cos]. unfold Rbin. cbn -[cos]. rewrite Rmult_0_l, cos_0. unfold bin. cbn. field.
Qed.
Lemma Uval_1m1 rho t : Uval (1, -1)%Z rho t = rho * sin t.
Proof.
  unfold Uval. cbn [fst snd]. destruct (zernike_U_int_form 1 (-1)) as (g & E & _ & Hg). { split; [lia|exists 1%Z; lia]. }
  rewrite E, Hg. unfold ang. change (Z.to_nat (Z.abs (-1))) with 1%nat. change (Z.to_nat 1) with 1%nat. change ((1 - 1) / 2)%nat with 0%nat.
  change (Z.ltb (-1) 0) with true. cbv iota. change (IZR (Z.abs (-1))) with 1. rewrite Rmult_1_l. unfold Rbin, bin. cbn -[sin]. field.
Qed.
Lemma Uval_11 rho t : Uval (1, 1)%Z rho t = rho * cos t.
Proof.
  unfold Uval. cbn [fst snd]. destruct (zernike_U_int_form 1 1) as (g & E & _ & Hg). { split; [lia|exists 0%Z; lia]. }
  rewrite E, Hg. unfold ang. change (Z.to_nat (Z.abs 1)) with 1%nat. change (Z.to_nat 1) with 1%nat. change ((1 - 1) / 2)%nat with 0%nat.
  change (Z.ltb 1 0) with false. cbv iota. change (IZR (Z.abs 1)) with 1. rewrite Rmult_1_l. unfold Rbin, bin. cbn -[cos]. field.
Qed.

Lemma series_1 c rho t : zernike_series 1 c rho t =
  c 0%nat 0%Z + (c 1%nat (-1)%Z * (rho * sin t) + c 1%nat 1%Z * (rho * cos t)).
Proof.
  unfold zernike_series. cbn [sum_upto]. cbv zeta.
  change (2 * Z.of_nat 0 - Z.of_nat 0)%Z with 0%Z. change (2 * Z.of_nat 0 - Z.of_nat 1)%Z with (-1)%Z. change (2 * Z.of_nat 1 - Z.of_nat 1)%Z with 1%Z.
  rewrite <- !Uval_circle by (split; [lia|]; first [exists 0%Z; lia|exists 1%Z; lia]).
  change (Z.of_nat 0) with 0%Z. change (Z.of_nat 1) with 1%Z. rewrite Uval_00, Uval_1m1, Uval_11. ring.
Qed.

Lemma polar_exists pr x y : 0 < pr -> exists rho theta, 0 <= rho /\ x = pr * (rho * cos theta) /\ y = pr * (rho * sin theta).
Proof.
  intros Hpr. exists (sqrt (x ^ 2 + y ^ 2) / pr), (arctan2 y x). split.
  - apply Rmult_le_pos; [apply sqrt_pos|]. left; apply Rinv_0_lt_compat; assumption.
  - split; [rewrite <- (cart2pol_cos x y) at 1|rewrite <- (cart2pol_sin x y) at 1]; field; lra.
Qed.

Lemma phase_tilt_plane K pr piston resolution n : (2 * length K = (n + 1) * (n + 2))%nat -> (1 <= n)%nat -> 0 < pr ->
  exists x y phi phi', phase K pr piston true resolution = Ok (x, y, phi) /\ phase K pr piston false resolution = Ok (x, y, phi') /\
  forall i j, (i < resolution)%nat -> (j < resolution)%nat ->
    nth i x 0 ^ 2 + nth j y 0 ^ 2 <= pr ^ 2 ->
    nth i (nth j phi []) 0 = nth i (nth j phi' []) 0 + 2 * PI * (nth 1 K 0 * nth j y 0 + nth 2 K 0 * nth i x 0) / pr.
Proof.
  intros HK Hn Hpr.
  destruct (phase_ok K pr piston true resolution n HK Hn Hpr) as (phi & E & _ & H).
  destruct (phase_ok K pr piston false resolution n HK Hn Hpr) as (phi' & E' & _ & H').
  do 4 eexists. split; [exact E|]. split; [exact E'|]. intros i j Hi Hj Hin.
  destruct (H j Hj) as [_ Hp]. destruct (Hp i Hi) as [_ Hp2]. destruct (H' j Hj) as [_ Hp']. destruct (Hp' i Hi) as [_ Hp2'].
  set (x := nth i (linspace (- pr) pr resolution) 0) in *. set (y := nth j (linspace (- pr) pr resolution) 0) in *.
  destruct (polar_exists pr x y Hpr) as (rho & t & Hr & Hx & Hy).
  rewrite (Hp2 Hin rho t Hr Hx Hy), (Hp2' Hin rho t Hr Hx Hy).
  pose proof (series_diff n (kept piston true (coeff_of K)) (kept piston false (coeff_of K)) rho t Hn) as D.
  rewrite !series_1 in D. specialize (D ltac:(intros [|[|i']] l' Hi'; try lia; reflexivity)).
  cbn [kept] in D. unfold coeff_of in D. change (coeff_pos 1 (-1)) with 1%nat in D. change (coeff_pos 1 1) with 2%nat in D.
  replace (2 * PI * (nth 1 K 0 * y + nth 2 K 0 * x) / pr) with (2 * PI * (nth 1 K 0 * (rho * sin t) + nth 2 K 0 * (rho * cos t))).
  2:{ rewrite Hx, Hy. field. lra. }
  rewrite <- Rmult_plus_distr_l. apply Rmult_eq_compat_l. unfold coeff_of. lra.
Qed.

Lemma phase_piston_shift K pr tilt resolution n : (2 * length K = (n + 1) * (n + 2))%nat -> (1 <= n)%nat -> 0 < pr ->
  exists x y phi phi', phase K pr true tilt resolution = Ok (x, y, phi) /\ phase K pr false tilt resolution = Ok (x, y, phi') /\
  forall i j, (i < resolution)%nat -> (j < resolution)%nat ->
    nth i x 0 ^ 2 + nth j y 0 ^ 2 <= pr ^ 2 ->
    nth i (nth j phi []) 0 = nth i (nth j phi' []) 0 + 2 * PI * nth 0 K 0.
Proof.
  intros HK Hn Hpr.
  destruct (phase_ok K pr true tilt resolution n HK Hn Hpr) as (phi & E & _ & H).
  destruct (phase_ok K pr false tilt resolution n HK Hn Hpr) as (phi' & E' & _ & H').
  do 4 eexists. split; [exact E|]. split; [exact E'|]. intros i j Hi Hj Hin.
  destruct (H j Hj) as [_ Hp]. destruct (Hp i Hi) as [_ Hp2]. destruct (H' j Hj) as [_ Hp']. destruct (Hp' i Hi) as [_ Hp2'].
  set (x := nth i (linspace (- pr) pr resolution) 0) in *. set (y := nth j (linspace (- pr) pr resolution) 0) in *.
  destruct (polar_exists pr x y Hpr) as (rho & t & Hr & Hx & Hy).
  rewrite (Hp2 Hin rho t Hr Hx Hy), (Hp2' Hin rho t Hr Hx Hy).
  pose proof (series_diff n (kept true tilt (coeff_of K)) (kept false tilt (coeff_of K)) rho t Hn) as D.
  rewrite !series_1 in D. specialize (D ltac:(intros [|[|i']] l' Hi'; try lia; reflexivity)).
  cbn [kept] in D. unfold coeff_of in D. change (coeff_pos 0 0) with 0%nat in D.
  rewrite <- Rmult_plus_distr_l. apply Rmult_eq_compat_l. unfold coeff_of. lra.
Qed.

(** C12. *)
Lemma linspace_scale c a b n : linspace (c * a) (c * b) n = map (Rmult c) (linspace a b n).
Proof. unfold linspace. rewrite map_map. apply map_ext. intros i. unfold Rdiv. ring. Qed.

Lemma arctan2_scale c x y : 0 < c -> arctan2 (c * y) (c * x) = arctan2 y x.
Proof.
  intros Hc. unfold arctan2.
  assert (Hq : x <> 0 -> c * y / (c * x) = y / x) by (intros; field; split; lra).
  destruct (Rlt_dec 0 x) as [H|H].
  - destruct (Rlt_dec 0 (c * x)); [|exfalso; nra]. rewrite Hq by lra. reflexivity.
  - destruct (Rlt_dec 0 (c * x)); [exfalso; nra|].
    destruct (Rlt_dec x 0) as [H2|H2].
    + destruct (Rlt_dec (c * x) 0); [|exfalso; nra]. rewrite Hq by lra.
      destruct (Rle_dec 0 y), (Rle_dec 0 (c * y)); try reflexivity; exfalso; nra.
    + destruct (Rlt_dec (c * x) 0); [exfalso; nra|].
      destruct (Rlt_dec 0 y), (Rlt_dec 0 (c * y)); try reflexivity; try (exfalso; nra).
      destruct (Rlt_dec y 0), (Rlt_dec (c * y) 0); try reflexivity; exfalso; nra.
Qed.

Lemma pixel_scale W pr c x y : 0 < c -> 0 < pr -> pixel W (c * pr) (c * x) (c * y) = pixel W pr x y.
Proof.
  intros Hc Hpr. unfold pixel. rewrite arctan2_scale by assumption.
  replace ((c * x) ^ 2 + (c * y) ^ 2) with (c ^ 2 * (x ^ 2 + y ^ 2)) by ring.
  rewrite sqrt_mult_alt by nra. rewrite sqrt_pow2 by lra.
  replace (c * sqrt (x ^ 2 + y ^ 2) / (c * pr)) with (sqrt (x ^ 2 + y ^ 2) / pr) by (field; lra).
  replace (Rltb ((c * pr) ^ 2) (c ^ 2 * (x ^ 2 + y ^ 2))) with (Rltb (pr ^ 2) (x ^ 2 + y ^ 2)); [reflexivity|].
  unfold Rltb. assert (0 < c ^ 2) by nra.
  destruct (Rlt_dec (pr ^ 2) (x ^ 2 + y ^ 2)), (Rlt_dec ((c * pr) ^ 2) (c ^ 2 * (x ^ 2 + y ^ 2))); try reflexivity; exfalso; nra.
Qed.

Lemma pixel_map_scale W pr c resolution : 0 < c -> 0 < pr -> pixel_map W (c * pr) resolution = pixel_map W pr resolution.
Proof.
  intros Hc Hpr. unfold pixel_map. replace (- (c * pr)) with (c * - pr) by ring. rewrite linspace_scale.
  rewrite !map_map. apply map_ext. intros y. rewrite map_map. apply map_ext. intros x. apply pixel_scale; assumption.
Qed.

Lemma phase_scale K pr c piston tilt resolution : 0 < c -> 0 < pr ->
  phase K (c * pr) piston tilt resolution =
  bind (phase K pr piston tilt resolution) (fun '(x, y, phi) => Ok (map (Rmult c) x, map (Rmult c) y, phi)).
Proof.
  intros Hc Hpr. rewrite !phase_unfold. destruct (phase_coeffs K piston tilt) as [K'|e]; cbn [bind]; [|reflexivity].
  rewrite !phase_map_unfold. destruct (wavefront K') as [W|e]; cbn [bind]; [|reflexivity].
  rewrite pixel_map_scale by assumption. replace (- (c * pr)) with (c * - pr) by ring. rewrite linspace_scale. reflexivity.
Qed.

Lemma phase_coeffs_linear K K' piston tilt a b V V' : length K' = length K -> phase_coeffs K piston tilt = Ok V -> phase_coeffs K' piston tilt = Ok V' ->
  phase_coeffs (map2 (fun k k' => a * k + b * k') K K') piston tilt = Ok (map2 (fun k k' => a * k + b * k') V V') /\ length V = length K /\ length V' = length K.
Proof.
  intros HL E E'.
  destruct K as [|k0 [|k1 [|k2 K]]]; destruct K' as [|k0' [|k1' [|k2' K']]]; cbn in HL; try lia;
  destruct piston, tilt; cbn in E, E' |- *; try discriminate; injection E as <-; injection E' as <-; cbn;
  repeat split; try reflexivity; try lia; rewrite ?Rmult_0_r, ?Rplus_0_r; reflexivity.
Qed.

Lemma phase_linear K K' pr piston tilt resolution a b x y phi x' y' phi' : length K' = length K ->
  phase K pr piston tilt resolution = Ok (x, y, phi) -> phase K' pr piston tilt resolution = Ok (x', y', phi') ->
  exists psi, phase (map2 (fun k k' => a * k + b * k') K K') pr piston tilt resolution = Ok (x, y, psi) /\
  length psi = resolution /\ forall i j, (i < resolution)%nat -> (j < resolution)%nat ->
    nth i (nth j psi []) 0 = a * nth i (nth j phi []) 0 + b * nth i (nth j phi' []) 0.
Proof.
  intros HL H H'. destruct (phase_inv _ _ _ _ _ _ _ _ H) as (V & W & EV & EW & -> & -> & ->).
  destruct (phase_inv _ _ _ _ _ _ _ _ H') as (V' & W' & EV' & EW' & -> & -> & ->).
  destruct (phase_coeffs_linear K K' piston tilt a b V V' HL EV EV') as (E & L1 & L2).
  destruct (wavefront_linear V V' a b W W' ltac:(lia) EW EW') as (Z & EZ & HZ).
  exists (pixel_map Z pr resolution). split; [|split].
  - rewrite phase_unfold, E. cbn [bind]. rewrite phase_map_unfold, EZ. reflexivity.
  - unfold pixel_map. rewrite map_length, linspace_length. reflexivity.
  - intros i j Hi Hj. rewrite !pixel_map_nth by assumption. unfold pixel. rewrite HZ.
    destruct (Rltb _ _); ring.
Qed.
