(** C03 (wavefront half), C09-C12: linearity, padding, bound, phase maps. *)
From Coquelicot Require Import Coquelicot.
From Flocq Require Import Core.Raux.
From Verif Require Import PyBase Sums PyLib Num MZernike PZernike SZernike PRodrigues PBound PDisk PEnum MMath MAperture PPolar PWave.
Open Scope R_scope.

(** Bound on U. *)
Lemma ang_bound l t : Rabs (ang l t) <= 1.
Proof.
  unfold ang. destruct (Z.ltb l 0); apply Rabs_le; [pose proof (SIN_bound (IZR (Z.abs l) * t))|pose proof (COS_bound (IZR (Z.abs l) * t))]; lra.
Qed.

Lemma Uval_bound n l rho t : admissible n l -> -1 <= rho <= 1 -> Rabs (Uval (n, l) rho t) <= 1.
Proof.
  intros H Hr. unfold Uval. cbn [fst snd]. destruct (zernike_U_int_form n l H) as (g & E & Hn & Hg). rewrite E, Hg, Rabs_mult.
  pose proof (Rbin_bound (Z.to_nat (Z.abs l) + (Z.to_nat n - Z.to_nat (Z.abs l)) / 2) ((Z.to_nat n - Z.to_nat (Z.abs l)) / 2) rho ltac:(lia) Hr).
  pose proof (ang_bound l t).
  rewrite <- (Rmult_1_l 1). apply Rmult_le_compat; auto using Rabs_pos.
Qed.

Lemma Wflat_bound n K rho t : (length K <= length (nl_list n))%nat -> -1 <= rho <= 1 ->
  Rabs (Wflat n K rho t) <= py_sum (map Rabs K).
Proof.
  intros HL Hr. unfold Wflat. eapply Rle_trans; [apply Rsum_abs|].
  rewrite py_sum_nth, map_length. apply Rsum_le. intros i Hi. rewrite Rabs_mult.
  rewrite (nth_indep (map Rabs K) 0 (Rabs 0)) by (rewrite map_length; assumption). rewrite map_nth.
  rewrite <- (Rmult_1_r (Rabs (nth i K 0))) at 2. apply Rmult_le_compat_l; [apply Rabs_pos|].
  destruct (nth i (nl_list n) (0, 0)%Z) as [n' l'] eqn:E.
  assert (Hin : In (n', l') (nl_list n)) by (rewrite <- E; apply nth_In; lia).
  apply nl_list_in in Hin as (_ & Ha). apply Uval_bound; assumption.
Qed.

Lemma wavefront_bound K W rho t : wavefront K = Ok W -> -1 <= rho <= 1 -> Rabs (W rho t) <= py_sum (map Rabs K).
Proof.
  intros E Hr. destruct K as [|k K']. { rewrite wavefront_nil in E; discriminate. }
  set (K := k :: K') in *.
  destruct (triangular_bracket (length K)) as [m [H1 H2]].
  assert (Hd : triangular (length K) \/ ~ triangular (length K)).
  { destruct (Nat.eq_dec (2 * length K) (m * (m + 1))) as [E2|E2].
    - left. exists (m - 1)%nat. assert (1 <= m)%nat by (destruct m; cbn in *; lia). nia.
    - right. intros [n Hn]. assert (m <= n + 1)%nat by nia. assert (n + 1 <= m)%nat by nia. apply E2. replace m with (n + 1)%nat by lia. lia. }
  destruct Hd as [[n Hn]|Hn].
  - destruct (wavefront_flat K n Hn) as (W' & E' & HW). rewrite E in E'. injection E' as <-. rewrite HW.
    apply Wflat_bound; [|assumption]. pose proof (nl_list_length_nat n). lia.
  - rewrite wavefront_bad in E; [discriminate|unfold K; congruence|assumption].
Qed.

(** Linearity. *)
Lemma map2_length {A B C} (f : A -> B -> C) l1 l2 : length l1 = length l2 -> length (map2 f l1 l2) = length l1.
Proof. revert l2; induction l1 as [|x t IH]; intros [|y t2] H; cbn in *; try lia. rewrite IH; lia. Qed.

Lemma map2_nth {A B C} (f : A -> B -> C) l1 l2 i a b c : length l1 = length l2 -> (i < length l1)%nat ->
  nth i (map2 f l1 l2) c = f (nth i l1 a) (nth i l2 b).
Proof.
  revert l2 i; induction l1 as [|x t IH]; intros [|y t2] i H Hi; cbn in *; try lia.
  destruct i; [reflexivity|]. apply IH; lia.
Qed.

Lemma Wflat_linear n K K' a b rho t : length K' = length K ->
  Wflat n (map2 (fun k k' => a * k + b * k') K K') rho t = a * Wflat n K rho t + b * Wflat n K' rho t.
Proof.
  intros H. unfold Wflat. rewrite map2_length, H by auto. rewrite <- !Rsum_scal, <- Rsum_plus.
  apply Rsum_ext. intros i Hi. rewrite (map2_nth _ K K' i 0 0) by auto. ring.
Qed.

Lemma wavefront_linear K K' a b W W' : length K' = length K -> wavefront K = Ok W -> wavefront K' = Ok W' ->
  exists V, wavefront (map2 (fun k k' => a * k + b * k') K K') = Ok V /\ forall rho t, V rho t = a * W rho t + b * W' rho t.
Proof.
  intros H E E'.
  destruct K as [|k0 K0]. { rewrite wavefront_nil in E; discriminate. } set (K := k0 :: K0) in *.
  assert (Ht : triangular (length K)).
  { destruct (triangular_bracket (length K)) as [m [H1 H2]].
    destruct (Nat.eq_dec (2 * length K) (m * (m + 1))) as [E2|E2].
    - exists (m - 1)%nat. assert (1 <= m)%nat by (destruct m; cbn in *; lia). nia.
    - exfalso. rewrite wavefront_bad in E; [discriminate|unfold K; congruence|].
      intros [n Hn]. assert (m <= n + 1)%nat by nia. assert (n + 1 <= m)%nat by nia. apply E2. replace m with (n + 1)%nat by lia. lia. }
  destruct Ht as [n Hn].
  destruct (wavefront_flat K n Hn) as (W1 & E1 & H1). rewrite E in E1; injection E1 as <-.
  destruct (wavefront_flat K' n ltac:(lia)) as (W2 & E2 & H2). rewrite E' in E2; injection E2 as <-.
  destruct (wavefront_flat (map2 (fun k k' => a * k + b * k') K K') n) as (V & EV & HV).
  { rewrite map2_length by auto. assumption. }
  exists V; split; [exact EV|]. intros. rewrite HV, H1, H2. apply Wflat_linear; assumption.
Qed.

(** Raising the order with zero coefficients. *)
Lemma wavefront_pad K z n n' : (2 * length K = (n + 1) * (n + 2))%nat -> (2 * (length K + z) = (n' + 1) * (n' + 2))%nat ->
  exists W W', wavefront K = Ok W /\ wavefront (K ++ repeat 0 z) = Ok W' /\ forall rho t, W' rho t = W rho t.
Proof.
  intros H H'. destruct (wavefront_series K n H) as (W & E & HW).
  destruct (wavefront_flat (K ++ repeat 0 z) n') as (W' & E' & HW').
  { rewrite app_length, repeat_length. assumption. }
  exists W, W'. split; [exact E|]. split; [exact E'|]. intros rho t. rewrite HW, HW'.
  unfold Wflat. rewrite app_length, repeat_length, Rsum_app.
  rewrite (Rsum_0 z).
  - rewrite Rplus_0_r. assert (n <= n')%nat by nia.
    rewrite (Rsum_ext (length K) _ (fun i => nth i K 0 * Uval (nth i (nl_list (Z.of_nat n')) (0, 0)%Z) rho t)).
    + apply (Wflat_series (fun i => nth i K 0) n' n); assumption.
    + intros i Hi. rewrite app_nth1 by assumption. reflexivity.
  - intros i Hi. rewrite app_nth2 by lia. rewrite nth_repeat. ring.
Qed.

(** Unit coefficient vectors. *)
Lemma coeff_pos_lt n i l : (i <= n)%nat -> admissible (Z.of_nat i) l -> (2 * coeff_pos i l < (n + 1) * (n + 2))%nat.
Proof.
  intros Hi Ha. pose proof (nl_list_nth (Z.of_nat n) (Z.of_nat i) l ltac:(lia) Ha) as E.
  pose proof (nl_list_length_nat n).
  assert (coeff_pos i l < length (nl_list (Z.of_nat n)))%nat.
  { apply nth_error_Some. unfold coeff_pos. rewrite E. discriminate. }
  lia.
Qed.

Lemma wavefront_unit n N i l : (2 * N = (n + 1) * (n + 2))%nat -> (i <= n)%nat -> admissible (Z.of_nat i) l ->
  exists W, wavefront (map (fun k => if Nat.eqb k (coeff_pos i l) then 1 else 0) (seq 0 N)) = Ok W
    /\ forall rho t, W rho t = circle i l rho t.
Proof.
  intros HN Hi Ha. set (K := map _ _).
  assert (HK : length K = N) by (unfold K; rewrite map_length, seq_length; reflexivity).
  destruct (wavefront_flat K n) as (W & E & HW). { rewrite HK; assumption. }
  exists W; split; [exact E|]. intros rho t. rewrite HW. unfold Wflat. rewrite HK.
  pose proof (coeff_pos_lt n i l Hi Ha) as Hlt.
  assert (Hnth : forall k, (k < N)%nat -> nth k K 0 = if Nat.eqb k (coeff_pos i l) then 1 else 0).
  { intros k Hk. unfold K. rewrite nth_indep with (d' := (fun k => if Nat.eqb k (coeff_pos i l) then 1 else 0) O)
      by (rewrite map_length, seq_length; assumption).
    rewrite map_nth with (f := fun k => if Nat.eqb k (coeff_pos i l) then 1 else 0), seq_nth by assumption. reflexivity. }
  rewrite (Rsum_single _ (coeff_pos i l)).
  - rewrite Hnth, Nat.eqb_refl, Rmult_1_l by lia.
    pose proof (nl_list_nth (Z.of_nat n) (Z.of_nat i) l ltac:(lia) Ha) as En. fold (coeff_pos i l) in En.
    rewrite (nth_error_nth _ _ _ En). apply Uval_circle; assumption.
  - lia.
  - intros k Hk Hne. rewrite Hnth by assumption. rewrite (proj2 (Nat.eqb_neq _ _) Hne). ring.
Qed.

(** Angles that share cosine and sine. *)
Lemma angle_period s t : cos s = cos t -> sin s = sin t -> exists k : Z, s = t + IZR k * (2 * PI).
Proof.
  intros Hc Hs.
  assert (E1 : cos (s - t) = 1).
  { rewrite cos_minus, Hc, Hs. pose proof (sin2_cos2 t) as E. unfold Rsqr in E. lra. }
  assert (E2 : sin ((s - t) / 2) = 0).
  { replace (s - t) with (2 * ((s - t) / 2)) in E1 by field. rewrite cos_2a_sin in E1. nra. }
  destruct (sin_eq_0_0 _ E2) as [k Hk]. exists k. lra.
Qed.

Lemma cos_add_2kPI x (k : Z) : cos (x + IZR k * (2 * PI)) = cos x.
Proof. rewrite cos_plus, cos_2kPI, sin_2kPI. ring. Qed.
Lemma sin_add_2kPI x (k : Z) : sin (x + IZR k * (2 * PI)) = sin x.
Proof. rewrite sin_plus, cos_2kPI, sin_2kPI. ring. Qed.

Lemma ang_period l s t : cos s = cos t -> sin s = sin t -> ang l s = ang l t.
Proof.
  intros Hc Hs. destruct (angle_period s t Hc Hs) as [k ->]. unfold ang.
  replace (IZR (Z.abs l) * (t + IZR k * (2 * PI))) with (IZR (Z.abs l) * t + IZR (Z.abs l * k) * (2 * PI)) by (rewrite mult_IZR; ring).
  rewrite cos_add_2kPI, sin_add_2kPI. reflexivity.
Qed.

Lemma circle_polar n l rho s t : admissible (Z.of_nat n) l -> (rho <> 0 -> cos s = cos t /\ sin s = sin t) ->
  circle n l rho s = circle n l rho t.
Proof.
  intros Ha H. unfold circle. fold (ang l s). fold (ang l t).
  destruct (Req_dec rho 0) as [->|Hr].
  - unfold radial. destruct (Req_EM_T 0 0) as [_|]; [|lra].
    destruct (Nat.eqb_spec (Z.to_nat (Z.abs l)) 0) as [E|E].
    + assert (l = 0)%Z by lia. subst l. unfold ang. cbn. rewrite !Rmult_0_l. reflexivity.
    + ring.
  - destruct (H Hr) as [Hc Hs]. rewrite (ang_period l s t Hc Hs). reflexivity.
Qed.

Lemma sum_upto_ext n f g : (forall i, (i <= n)%nat -> f i = g i) -> sum_upto n f = sum_upto n g.
Proof. intros H. rewrite !sum_upto_Rsum. apply Rsum_ext. intros; apply H; lia. Qed.

Lemma series_polar n K rho s t : (rho <> 0 -> cos s = cos t /\ sin s = sin t) ->
  zernike_series n K rho s = zernike_series n K rho t.
Proof.
  intros H. unfold zernike_series. apply sum_upto_ext. intros i Hi. apply sum_upto_ext. intros k Hk. cbv zeta.
  f_equal. apply circle_polar; [apply admissible_row; lia|assumption].
Qed.

(** Coefficients after the piston / tilt switches. *)
Definition phase_coeffs (K : list R) (piston tilt : bool) : res (list R) :=
  bind (if piston then Ok K else py_set K 0 0) (fun K1 =>
  if tilt then Ok K1 else bind (py_set K1 1 0) (fun K2 => py_set K2 2 0)).

Lemma hset_last h b i v : hset (h ++ [b]) (length h) i v =
  match py_set b i v with Ok b' => (h ++ [b'], Ok tt) | Err e => (h ++ [b], Err e) end.
Proof.
  unfold hset. rewrite app_nth2 by lia. rewrite Nat.sub_diag. cbn [nth].
  destruct (py_set b i v); [|reflexivity]. f_equal.
  induction h as [|x h IH]; cbn; [reflexivity|]. f_equal. exact IH.
Qed.

Lemma phase_heap_spec h p pr piston tilt resolution :
  exists b, phase_heap h p pr piston tilt resolution =
    (h ++ [b], bind (phase_coeffs (nth p h []) piston tilt) (fun K' => phase_map K' pr resolution)).
Proof.
  unfold phase_heap, phase_coeffs, hset_tilt. set (K := nth p h []). clearbody K. cbv zeta.
  assert (Hl : forall b, nth (length h) (h ++ [b]) [] = b).
  { intros b. rewrite app_nth2 by lia. rewrite Nat.sub_diag. reflexivity. }
  destruct piston.
  - destruct tilt; cbn [bind].
    + eexists. rewrite Hl. reflexivity.
    + rewrite hset_last. destruct (py_set K 1 0) as [K1|e]; cbn [bind].
      * rewrite hset_last. destruct (py_set K1 2 0) as [K2|e]; cbn [bind]; [rewrite Hl|]; eexists; reflexivity.
      * eexists; reflexivity.
  - rewrite hset_last. destruct (py_set K 0 0) as [K0|e]; cbn [bind]; [|eexists; reflexivity].
    destruct tilt; cbn [bind].
    + eexists. rewrite Hl. reflexivity.
    + rewrite hset_last. destruct (py_set K0 1 0) as [K1|e]; cbn [bind].
      * rewrite hset_last. destruct (py_set K1 2 0) as [K2|e]; cbn [bind]; [rewrite Hl|]; eexists; reflexivity.
      * eexists; reflexivity.
Qed.

Lemma phase_unfold K pr piston tilt resolution : phase K pr piston tilt resolution =
  bind (phase_coeffs K piston tilt) (fun K' => phase_map K' pr resolution).
Proof. unfold phase. destruct (phase_heap_spec [K] 0 pr piston tilt resolution) as (b & ->). reflexivity. Qed.

(** The caller's arrays are untouched, and the result depends on K_coeff only. *)
Lemma phase_frame h p pr piston tilt resolution :
  let '(h', r) := phase_heap h p pr piston tilt resolution in
  firstn (length h) h' = h /\ r = phase (nth p h []) pr piston tilt resolution.
Proof.
  destruct (phase_heap_spec h p pr piston tilt resolution) as (b & ->). split.
  - rewrite firstn_app, Nat.sub_diag, firstn_all. cbn. apply app_nil_r.
  - rewrite phase_unfold. reflexivity.
Qed.

Definition keep (piston tilt : bool) (i : nat) : bool :=
  match i with O => piston | S O => tilt | S (S O) => tilt | _ => true end.

Lemma phase_coeffs_ok K piston tilt : (1 <= length K)%nat -> (tilt = false -> 3 <= length K)%nat ->
  exists K', phase_coeffs K piston tilt = Ok K' /\ length K' = length K /\
    forall i, nth i K' 0 = if keep piston tilt i then nth i K 0 else 0.
Proof.
  intros H1 H. destruct K as [|k0 K]; [cbn in H1; lia|]. destruct tilt.
  { destruct piston; cbn; (eexists; split; [reflexivity|]); (split; [reflexivity|]); intros [|[|[|i]]]; reflexivity. }
  specialize (H eq_refl). destruct K as [|k1 [|k2 K]]; cbn in H; try lia.
  destruct piston; cbn; (eexists; split; [reflexivity|]); (split; [reflexivity|]);
   intros [|[|[|i]]]; reflexivity.
Qed.

Lemma coeff_pos_keep piston tilt i l : admissible (Z.of_nat i) l ->
  keep piston tilt (coeff_pos i l) = match i with O => piston | S O => tilt | _ => true end.
Proof.
  intros [Hl [k Hk]]. unfold coeff_pos.
  destruct i as [|[|i]].
  - assert (l = 0)%Z by lia. subst l. reflexivity.
  - assert (l = 1 \/ l = -1)%Z as [->| ->] by lia; reflexivity.
  - pose proof (coeff_pos_row (S (S i)) (Z.to_nat (Z.of_nat (S (S i)) - k))) as E.
    unfold coeff_pos in E. replace (2 * Z.of_nat (Z.to_nat (Z.of_nat (S (S i)) - k)) - Z.of_nat (S (S i)))%Z with l in E by lia.
    destruct (Z.to_nat _) as [|[|[|p]]]; cbn [keep]; try reflexivity; nia.
Qed.

Lemma phase_ok' K pr piston tilt resolution n : (2 * length K = (n + 1) * (n + 2))%nat -> (tilt = false -> 1 <= n)%nat -> 0 < pr ->
  exists phi, phase K pr piston tilt resolution = Ok (linspace (- pr) pr resolution, linspace (- pr) pr resolution, phi)
   /\ length phi = resolution /\
   forall j, (j < resolution)%nat -> length (nth j phi []) = resolution /\
   forall i, (i < resolution)%nat ->
     let x := nth i (linspace (- pr) pr resolution) 0 in
     let y := nth j (linspace (- pr) pr resolution) 0 in
     (pr ^ 2 < x ^ 2 + y ^ 2 -> nth i (nth j phi []) 0 = 0) /\
     (x ^ 2 + y ^ 2 <= pr ^ 2 -> forall rho theta, 0 <= rho -> x = pr * (rho * cos theta) -> y = pr * (rho * sin theta) ->
        nth i (nth j phi []) 0 = 2 * PI * zernike_series n (kept piston tilt (coeff_of K)) rho theta).
Proof.
  intros HK Hn Hpr. rewrite phase_unfold.
  destruct (phase_coeffs_ok K piston tilt) as (K' & E & HL & Hnth). { nia. } { intros ET. specialize (Hn ET). nia. }
  rewrite E. cbn [bind]. unfold phase_map.
  destruct (wavefront_series K' n) as (W & EW & HW). { rewrite HL; assumption. }
  rewrite EW. cbn [bind]. eexists. split; [reflexivity|].
  unfold map2d, meshgrid. split. { rewrite !map_length, linspace_length. reflexivity. }
  intros j Hj.
  set (F := fun '(xx, yy) => let '(r, t) := cart2pol xx yy in (if Rltb (pr ^ 2) (xx ^ 2 + yy ^ 2) then 0 else W (r / pr) t) * 2 * PI).
  assert (Erow : nth j (map (map F) (map (fun yj => map (fun xi => (xi, yj)) (linspace (- pr) pr resolution)) (linspace (- pr) pr resolution))) []
     = map (fun xi => F (xi, nth j (linspace (- pr) pr resolution) 0)) (linspace (- pr) pr resolution)).
  { rewrite map_map. rewrite nth_indep with (d' := (fun yj => map F (map (fun xi => (xi, yj)) (linspace (- pr) pr resolution))) 0)
      by (rewrite map_length, linspace_length; assumption).
    rewrite map_nth with (f := fun yj => map F (map (fun xi => (xi, yj)) (linspace (- pr) pr resolution))). rewrite map_map. reflexivity. }
  fold F. rewrite Erow. split. { rewrite map_length, linspace_length; reflexivity. }
  intros i Hi. cbv zeta.
  set (x := nth i (linspace (- pr) pr resolution) 0). set (y := nth j (linspace (- pr) pr resolution) 0).
  assert (Epix : nth i (map (fun xi => F (xi, y)) (linspace (- pr) pr resolution)) 0 = F (x, y)).
  { rewrite nth_indep with (d' := (fun xi => F (xi, y)) 0) by (rewrite map_length, linspace_length; assumption).
    rewrite map_nth with (f := fun xi => F (xi, y)). reflexivity. }
  rewrite Epix. unfold F, cart2pol. split.
  - intros Hout. apply Rltb_true in Hout. rewrite Hout. ring.
  - intros Hin rho theta Hrho Hx Hy. apply Rltb_false in Hin. rewrite Hin.
    assert (Hsq : sqrt (x ^ 2 + y ^ 2) = pr * rho).
    { replace (x ^ 2 + y ^ 2) with ((pr * rho) * (pr * rho) * ((sin theta)² + (cos theta)²)) by (rewrite Hx, Hy; unfold Rsqr; ring).
      rewrite sin2_cos2, Rmult_1_r. apply sqrt_square. nra. }
    rewrite Hsq. replace (pr * rho / pr) with rho by (field; lra). rewrite HW.
    rewrite (series_polar n _ rho (arctan2 y x) theta).
    + rewrite (Rmult_comm (zernike_series _ _ _ _) 2), Rmult_assoc, (Rmult_comm _ PI), <- Rmult_assoc. f_equal.
      unfold zernike_series. apply sum_upto_ext. intros a Ha. apply sum_upto_ext. intros k Hk. cbv zeta. f_equal.
      rewrite Hnth. rewrite coeff_pos_keep by (apply admissible_row; assumption).
      unfold kept, coeff_of. destruct a as [|[|a]]; reflexivity.
    + intros Hr. pose proof (cart2pol_cos x y) as Hc. pose proof (cart2pol_sin x y) as Hs. rewrite Hsq in Hc, Hs.
      split; apply Rmult_eq_reg_l with (pr * rho); try nra.
Qed.

Lemma phase_ok K pr piston tilt resolution n : (2 * length K = (n + 1) * (n + 2))%nat -> (1 <= n)%nat -> 0 < pr ->
  exists phi, phase K pr piston tilt resolution = Ok (linspace (- pr) pr resolution, linspace (- pr) pr resolution, phi)
   /\ length phi = resolution /\
   forall j, (j < resolution)%nat -> length (nth j phi []) = resolution /\
   forall i, (i < resolution)%nat ->
     let x := nth i (linspace (- pr) pr resolution) 0 in
     let y := nth j (linspace (- pr) pr resolution) 0 in
     (pr ^ 2 < x ^ 2 + y ^ 2 -> nth i (nth j phi []) 0 = 0) /\
     (x ^ 2 + y ^ 2 <= pr ^ 2 -> forall rho theta, 0 <= rho -> x = pr * (rho * cos theta) -> y = pr * (rho * sin theta) ->
        nth i (nth j phi []) 0 = 2 * PI * zernike_series n (kept piston tilt (coeff_of K)) rho theta).
Proof. intros HK Hn. apply phase_ok'; auto. Qed.

(** Errors of phase. *)
Lemma phase_index_error K pr piston tilt resolution :
  (piston = false /\ K = []) \/ (tilt = false /\ (length K < 3)%nat) ->
  phase K pr piston tilt resolution = Err IndexError.
Proof.
  intros H. rewrite phase_unfold.
  assert (E : phase_coeffs K piston tilt = Err IndexError).
  { destruct H as [[-> ->]|[-> H]].
    - reflexivity.
    - destruct K as [|k0 [|k1 [|k2 K]]]; cbn in H; try lia; destruct piston; reflexivity. }
  rewrite E. reflexivity.
Qed.

Lemma wavefront_bad_api K : K <> [] -> (forall n, 2 * length K <> (n + 1) * (n + 2))%nat -> wavefront K = Err IndexError.
Proof. intros H H'. apply wavefront_bad; [exact H|]. intros [n Hn]. exact (H' n Hn). Qed.
