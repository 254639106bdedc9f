(** A telescope with a tilt for the best fits in binary64: the samples of PRound18.v, three points per map. *)
From Coq Require Import Reals String List Lra Lia ZArith Permutation.
From Verif Require Import PyBase PyLib Sums Num MZernike SZernike MMath MAperture MTel MRad MCore MFs MOut SOut SFit SBest MSim MAux SRecover SMath SCore STel SFloat MFloat MFloat2 MFloat3 MFloat4 MFloat5 MFloat6 SRad SGain SRound SRound2 SRound3 SRound4 SRound5 POrder64 PRound PRound2 PRound4 PRound5 PRound9 PRound10 PRad PAper PIllum PTel PGain PGain2 PFar PNorm PResid PSim PSim2 PSim3 PEnd PBest PDemo PRecover PCov2 PRound14 PRound15 PRound16 PRound18 PRound19 PRound20.
From Coquelicot Require Import Complex.
From Verif Require Import PRecover3.
Import ListNotations.
Open Scope R_scope.
Open Scope string_scope.
Open Scope list_scope.

Definition ramp_K (t : R) : list R := [0; 0; t].
Definition ramp_x : list (list R) := [[0; bowl_step; - bowl_step]; [0; bowl_step; - bowl_step]; [0; bowl_step; - bowl_step]].
Definition ramp_y : list (list R) := [[0; 0; 0]; [0; 0; 0]; [0; 0; 0]].
Definition ramp_beam : list (list num) := [[Fin 5; Fin 5; Fin 1]; [Fin 7; Fin 7; Fin 2]; [Fin 3; Fin 3; Fin 0]].
Definition ramp_map (t : R) : list R :=
  [8 * bowl_A ^ 2 * (1 + cos (8 * PI * t / 5)); 8 * bowl_A ^ 2 * (1 + cos (8 * PI * t / 5 - PI / 3)); 8 * bowl_A ^ 2 * (1 + cos (8 * PI * t / 5 + PI / 3))].

Lemma ramp_turns t z : 0 <= t <= 1 / 4 -> In z bowl_z -> 0 <= turns (ramp_K t) z (9 / 1000) <= 12.
Proof.
  intros Ht Hz. assert (Z : 0 <= Rabs z <= 22 / 1000). { split; [apply Rabs_pos|]. destruct Hz as [<-|[<-|[<-|[]]]]; apply Rabs_le; lra. }
  unfold turns. replace (total_abs (ramp_K t)) with t. 2:{ cbn [total_abs ramp_K fold_right]. rewrite Rabs_R0, (Rabs_pos_eq t) by lra. lra. } replace (INR (length (ramp_K t))) with 3 by (rewrite INR_IZR_INZ; reflexivity). pose proof tiny_1. pose proof tiny_pos. lra.
Qed.
Lemma ramp_loss t z : 0 <= t <= 1 / 4 -> In z bowl_z -> field_loss 1 2 2 (turns (ramp_K t) z (9 / 1000)) * / 2 ^ 52 <= / 2 ^ 30.
Proof.
  intros Ht Hz. pose proof (ramp_turns t z Ht Hz) as T. set (x := turns (ramp_K t) z (9 / 1000)) in *. pose proof PI_4. pose proof PI_RGT_0. unfold field_loss, loss. replace (INR 1) with 1 by reflexivity. assert (0 <= PI * x <= 4 * 12) by (split; [apply Rmult_le_pos; lra|apply Rmult_le_compat; lra]).
  match goal with |- ?w * _ <= _ => assert (w <= 2 ^ 22) by lra end. assert (P : 0 < / 2 ^ 52) by (apply Rinv_0_lt_compat, pow_lt; lra). apply Rle_trans with (2 ^ 22 * / 2 ^ 52); [apply Rmult_le_compat_r; lra|lra].
Qed.
Lemma ramp_reach t z : 0 <= t <= 1 / 4 -> In z bowl_z -> within_reach (/ 2 ^ 52) 1 (ramp_K t) 50 3 1 20 30 300 2 (9 / 1000) z 2 (-12) 2 0 0 6.
Proof.
  intros Ht Hz. destruct (bowl_reach z Hz) as (_ & _ & D & S & A & B & Q & _). split; [reflexivity|]. split; [reflexivity|]. split; [exact D|]. split; [exact S|]. split; [exact A|]. split; [exact B|]. split; [exact Q|].
  eapply Rle_trans; [exact (ramp_loss t z Ht Hz)|]. apply Rinv_le_contravar; [lra|]. apply Rle_trans with (2 ^ 10); [lra|apply Rle_pow; [lra|lia]].
Qed.

Lemma ramp_aperture t z : exists E c0, aperture illum_parabolic bowl bowl_I (ramp_K t) z (9 / 1000) = Ok E /\
  forall i j, (i < 6)%nat -> (j < 6)%nat -> E (sample (50 * 2) 6 i) (sample (50 * 2) 6 j) = if (((i =? 2) || (i =? 3)) && ((j =? 2) || (j =? 3)))%nat%bool then Cmult (RtoC bowl_A) (cis (c0 + 4 * PI * t / 5 * (sample (50 * 2) 6 i / 20))) else RtoC 0.
Proof.
  destruct (proj1 (par_arity bowl_I 50) eq_refl) as [Ea EI]. destruct (aperture_ok illum_parabolic bowl bowl_I (ramp_K t) z (9 / 1000) 1 Ea eq_refl EI) as (E & HE & HV).
  exists E, (2 * PI * (z * ((1 - (sqrt 800 / (2 * 30)) ^ 2) / (1 + (sqrt 800 / (2 * 30)) ^ 2) + (1 - (sqrt 800 / (2 * 300)) ^ 2) / (1 + (sqrt 800 / (2 * 300)) ^ 2)) / (9 / 1000))). split; [exact HE|]. intros i j Hi Hj. rewrite HV. cbn [bowl manual block_dist opd_func tel_pr]. rewrite (bowl_block i j Hi Hj).
  destruct ((((i =? 2) || (i =? 3)) && ((j =? 2) || (j =? 3)))%nat%bool) eqn:Bk.
  - apply Bool.andb_true_iff in Bk as [B1 B2]. apply Bool.orb_true_iff in B1. apply Bool.orb_true_iff in B2. rewrite !Nat.eqb_eq in B1, B2.
    pose proof (bowl_cases i Hi) as Ci. pose proof (bowl_cases j Hj) as Cj. cbv zeta in Ci, Cj. set (x := sample (50 * 2) 6 i) in *. set (y := sample (50 * 2) 6 j) in *. destruct Ci as [(_ & X1 & _)|(I1 & _)]; [|contradiction]. destruct Cj as [(_ & Y1 & _)|(J1 & _)]; [|contradiction].
    assert (S8 : x ^ 2 + y ^ 2 = 800) by lra. unfold opd_manual. cbv zeta. pose proof (PPolar.cart2pol_cos x y) as C. rewrite S8 in *.
    assert (R0 : sqrt 800 / 50 <> 0) by (pose proof (sqrt_lt_R0 800 ltac:(lra)); lra). unfold ramp_K. rewrite (series_one t _ _ R0). f_equal.
    + f_equal. rewrite Rmult_1_l. rewrite (par_inside 2 (-12) 2 0 0 50 Ea x y ltac:(lra) EI); rewrite !Rminus_0_r, S8; [reflexivity|lra].
    + f_equal. replace (sqrt 800 / 50 * cos (arctan2 y x)) with (x / 50) by (rewrite <- C at 1; field).
      match goal with |- context [z * ?w / (9 / 1000)] => set (v := w) end. field.
  - rewrite Rmult_0_l. apply Cmult_0_l.
Qed.
Lemma ramp_power E c0 f : (forall i j, (i < 6)%nat -> (j < 6)%nat -> E (sample (50 * 2) 6 i) (sample (50 * 2) 6 j) = if (((i =? 2) || (i =? 3)) && ((j =? 2) || (j =? 3)))%nat%bool then Cmult (RtoC bowl_A) (cis (c0 + f * (sample (50 * 2) 6 i / 20))) else RtoC 0) ->
  forall p, Cmod (centred E (50 * 2) 6 0 p) ^ 2 = 8 * bowl_A ^ 2 * (1 + cos (2 * f - IZR p * (PI / 3))).
Proof.
  intros H p. assert (Q : forall z, Cmod z ^ 2 = fst z ^ 2 + snd z ^ 2) by (intros z; unfold Cmod; rewrite pow2_sqrt by nra; ring).
  assert (G : centred E (50 * 2) 6 0 p = Cmult (RtoC (2 * bowl_A)) (Cplus (cis (c0 - f - 2 * PI * (IZR p * 2 / 6))) (cis (c0 + f - 2 * PI * (IZR p * 3 / 6))))).
  { unfold centred. cbn [Csum]. rewrite !gx_sample by lia. rewrite !H by lia. cbn [Nat.eqb orb andb]. rewrite !Cmult_0_l, !Cplus_0_l, !Cplus_0_r. rewrite !bowl_sample.
    repeat match goal with |- context [IZR (2 * Z.of_nat ?k - 5)] => let v := eval compute in (2 * Z.of_nat k - 5)%Z in change (2 * Z.of_nat k - 5)%Z with v end. cbn [INR].
    replace (c0 + f * (20 * (-1) / 20)) with (c0 - f) by field. replace (c0 + f * (20 * 1 / 20)) with (c0 + f) by field.
    replace (- (2 * PI * ((0 * (1 + 1) + IZR p * (1 + 1)) / (1 + 1 + 1 + 1 + 1 + 1)))) with (- (2 * PI * (IZR p * 2 / 6))) by field. replace (- (2 * PI * ((0 * (1 + 1) + IZR p * (1 + 1 + 1)) / (1 + 1 + 1 + 1 + 1 + 1)))) with (- (2 * PI * (IZR p * 3 / 6))) by field.
    replace (- (2 * PI * ((0 * (1 + 1 + 1) + IZR p * (1 + 1)) / (1 + 1 + 1 + 1 + 1 + 1)))) with (- (2 * PI * (IZR p * 2 / 6))) by field. replace (- (2 * PI * ((0 * (1 + 1 + 1) + IZR p * (1 + 1 + 1)) / (1 + 1 + 1 + 1 + 1 + 1)))) with (- (2 * PI * (IZR p * 3 / 6))) by field.
    unfold Rminus. rewrite !cis_plus. rewrite RtoC_mult. replace (RtoC 2) with (Cplus (RtoC 1) (RtoC 1)) by (rewrite <- RtoC_plus; f_equal; ring). ring. }
  rewrite G, Q. set (s := c0 - f - 2 * PI * (IZR p * 2 / 6)). set (w := c0 + f - 2 * PI * (IZR p * 3 / 6)). replace (2 * f - IZR p * (PI / 3)) with (w - s) by (unfold w, s; field). rewrite cos_minus.
  unfold cis, Cplus, Cmult, RtoC. cbn [fst snd]. pose proof (sin2_cos2 s) as N1. pose proof (sin2_cos2 w) as N2. unfold Rsqr in N1, N2.
  transitivity (4 * bowl_A ^ 2 * ((sin s * sin s + cos s * cos s) + (sin w * sin w + cos w * cos w) + 2 * (cos w * cos s + sin w * sin s))); [ring|rewrite N1, N2; ring].
Qed.
Lemma ramp_row t i : (i < 3)%nat -> model_row illum_parabolic bowl (bowl_I ++ ramp_K t) ramp_x ramp_y bowl_z (9 / 1000) 6 2 i = Ok (ramp_map t).
Proof.
  intros Hi. assert (exists z, nth_error bowl_z i = Some z /\ nth_error ramp_x i = Some [0; bowl_step; - bowl_step] /\ nth_error ramp_y i = Some [0; 0; 0]) as (z & Ez & Ex & Ey) by (destruct i as [|[|[|]]]; [| | |lia]; eexists; repeat split; reflexivity).
  destruct (ramp_aperture t z) as (E & c0 & HE & HV). pose proof (ramp_power E c0 (4 * PI * t / 5) HV) as PW.
  assert (R : exists uvF, radiation_pattern illum_parabolic bowl bowl_I (ramp_K t) z (9 / 1000) 6 2 = Ok uvF). { rewrite rad_unfold by lia. cbv zeta. rewrite HE. cbn [bind]. eexists. reflexivity. } destruct R as [[[ua va] F] R].
  destruct (axes_api illum_parabolic bowl bowl_I (ramp_K t) z (9 / 1000) 6 2 ua va F ltac:(lra) ltac:(cbn; lra) ltac:(lra) R) as (Q & Lu & LF & LR & _ & A). cbv zeta in A. destruct A as (Hs & An & _ & Inc). subst va. cbn [tel_pr bowl manual] in An, Hs. fold (grid_step 50 (9 / 1000) 6 2) in An, Hs. fold bowl_step in An, Hs.
  destruct (rad_inv _ _ _ _ _ _ _ _ _ _ _ R) as (_ & E' & HE' & EF & _ & _). rewrite HE in HE'. apply Ok_inj in HE'. subst E'. cbn [tel_pr bowl manual] in EF.
  unfold model_row, py_get. rewrite Ez, Ex, Ey. cbn [bind]. change (firstn 5 (bowl_I ++ ramp_K t)) with bowl_I. change (skipn 5 (bowl_I ++ ramp_K t)) with (ramp_K t). rewrite R. cbn [bind]. unfold interp_points. cbn [length Nat.eqb forallb].
  assert (U3 : nth 3 ua 0 = 0) by (rewrite An by lia; change (6 / 2)%nat with 3%nat; ring). assert (U4 : nth 4 ua 0 = bowl_step) by (rewrite An by lia; change (6 / 2)%nat with 3%nat; cbn [INR]; ring). assert (U2 : nth 2 ua 0 = - bowl_step) by (rewrite An by lia; change (6 / 2)%nat with 3%nat; cbn [INR]; ring).
  assert (IB : forall k, (k < 6)%nat -> in_bounds ua (nth k ua 0) = true). { intros k Hk. unfold in_bounds. rewrite Lu. apply Bool.andb_true_iff. split; apply Rleb_true. 
    - destruct (Nat.eq_dec k 0) as [Z|]; [rewrite Z; apply Rle_refl|left; apply Inc; lia].
    - destruct (Nat.eq_dec k 5) as [Z|]; [rewrite Z; apply Rle_refl|left; apply Inc; cbn; lia]. }
  pose proof (IB 3%nat ltac:(lia)) as I3. pose proof (IB 4%nat ltac:(lia)) as I4. pose proof (IB 2%nat ltac:(lia)) as I2. rewrite U3 in I3. rewrite U4 in I4. rewrite U2 in I2. rewrite I3, I4, I2. cbn [andb map2].
  assert (Ic : increasing ua) by (intros a b Hab; apply Inc; lia).
  assert (W : forall k, (k < 6)%nat -> interp2 ua ua (power_pattern F) (nth k ua 0) 0 = Cmod (centred E (50 * 2) 6 0 (Z.of_nat k - 3)) ^ 2).
  { intros k Hk. replace (interp2 ua ua (power_pattern F) (nth k ua 0) 0) with (interp2 ua ua (power_pattern F) (nth k ua 0) (nth 3 ua 0)) by (rewrite U3; reflexivity). rewrite (interp_node ua ua (power_pattern F) k 3 Ic Ic) by lia. rewrite (power_at F 3 k 6 LF LR) by lia. rewrite EF, rad_sample by lia. change (6 / 2)%nat with 3%nat. reflexivity. }
  pose proof (W 3%nat ltac:(lia)) as W3. pose proof (W 4%nat ltac:(lia)) as W4. pose proof (W 2%nat ltac:(lia)) as W2. rewrite U3 in W3. rewrite U4 in W4. rewrite U2 in W2. rewrite PW in W2, W3, W4. rewrite W3, W4, W2.
  change (IZR (Z.of_nat 3 - 3)) with 0. change (IZR (Z.of_nat 4 - 3)) with 1. change (IZR (Z.of_nat 2 - 3)) with (-1). unfold ramp_map.
  replace (2 * (4 * PI * t / 5) - 0 * (PI / 3)) with (8 * PI * t / 5) by field. replace (2 * (4 * PI * t / 5) - 1 * (PI / 3)) with (8 * PI * t / 5 - PI / 3) by field. replace (2 * (4 * PI * t / 5) - -1 * (PI / 3)) with (8 * PI * t / 5 + PI / 3) by field. reflexivity.
Qed.
Lemma ramp_slope t : 0 <= t <= 1 / 4 -> 1 / 2 <= cos (8 * PI * t / 5) - cos (8 * PI * t / 5 + PI / 3).
Proof.
  intros Ht. pose proof PI_RGT_0 as P. set (x := 8 * PI * t / 5). assert (0 <= PI * t <= PI * (1 / 4)) by (split; [apply Rmult_le_pos; lra|apply Rmult_le_compat_l; lra]). assert (X : 0 <= x <= 2 * PI / 5) by (unfold x; lra).
  replace (cos x - cos (x + PI / 3)) with (sin (x + PI / 6)).
  - rewrite <- sin_PI6. destruct (Rle_dec (x + PI / 6) (PI / 2)) as [L|L]; [apply sin_incr_1; lra|]. replace (sin (x + PI / 6)) with (sin (PI - (x + PI / 6))) by (apply sin_PI_x). apply sin_incr_1; lra.
  - rewrite cos_plus, sin_plus, sin_PI6, cos_PI6, cos_PI3, sin_PI3. field.
Qed.

Lemma bowl_A_big : 85 / 100 <= bowl_A ^ 2.
Proof.
  unfold bowl_A, par_value. cbv zeta. replace (Rpower (1 - 800 / 50 ^ 2) 2) with ((1 - 800 / 50 ^ 2) ^ 2) by (rewrite <- (Rpower_pow 2) by lra; f_equal; cbn; lra). set (c := Rpower 10 (-12 / 20)).
  assert (C0 : 0 < c) by apply exp_pos. assert (C1 : c <= 1). { unfold c. rewrite <- (Rpower_O 10) by lra. apply Rle_Rpower; lra. }
  assert (A : 92 / 100 + 4 / 1000 <= 2 * (c + (1 - c) * (1 - 800 / 50 ^ 2) ^ 2)) by lra. set (w := 2 * _) in *. nra.
Qed.
Lemma ramp_lit : 0 <= over_samples (50 * 2) 6 (block_manual 50 3 1 20) <= 36.
Proof.
  assert (B : forall x y, 0 <= block_manual 50 3 1 20 x y <= 1) by (intros x y; destruct (PRound13.block_01 50 3 1 20 x y) as [-> |[-> _]]; lra).
  split; [apply over_nonneg; intros; apply B|]. eapply Rle_trans; [apply (over_le _ _ _ (fun _ _ => 1)); intros; apply B|]. unfold over_samples. cbn [Rsum]. lra.
Qed.
Lemma norm3 h q l : l <= q <= h -> l < h -> norm_all [Fin h; Fin q; Fin l] = Ok [1; (q - l) / (h - l); 0].
Proof.
  intros H1 H2. unfold norm_all, np_min, np_max. cbn [map fold_left bind]. rewrite !nmin_Fin, !nmax_Fin. rewrite (Rmin_right h q), (Rmin_right q l), (Rmax_left h q), (Rmax_left h l) by lra.
  cbn [map]. unfold norm_by, nsub, nneg, nadd, ndiv. destruct (Req_EM_T (h + - l) 0); [lra|]. cbn [nan_to_num].
  assert (E1 : (h + - l) / (h + - l) = 1) by (field; lra). assert (E0 : (l + - l) / (h + - l) = 0) by (field; lra). assert (E2 : (q + - l) / (h + - l) = (q - l) / (h - l)) by (field; lra). rewrite E0, E1, E2. reflexivity.
Qed.
Lemma ramp_residual t q : norm_all (map Fin (ramp_map t)) = Ok [1; q; 0] ->
  residual_true illum_parabolic bowl (bowl_I ++ ramp_K t) ramp_beam ramp_x ramp_y bowl_z (9 / 1000) 6 2 = Ok (concat (repeat [0; 1 - q; 0] 3)).
Proof.
  intros N. unfold residual_true. cbv zeta. cbn [ramp_beam map].
  rewrite (fill3 _ _ _ _ _ _ _ (ramp_row t 0 ltac:(lia)) (ramp_row t 1 ltac:(lia)) (ramp_row t 2 ltac:(lia))) by reflexivity. cbn [bind]. rewrite !norm_rows_eq. unfold ramp_beam. cbn [mapM map repeat].
  rewrite (norm3 5 5 1), (norm3 7 7 2), (norm3 3 3 0) by lra. cbn [bind]. rewrite !N. cbn [bind map2 concat app]. repeat f_equal; lra.
Qed.
(** The tilt 5/48 explains the maps, no tilt does not. *)
Lemma ramp_exact : residual_true illum_parabolic bowl (bowl_I ++ ramp_K (5 / 48)) ramp_beam ramp_x ramp_y bowl_z (9 / 1000) 6 2 = Ok (repeat 0 9).
Proof.
  pose proof bowl_A_big as A. rewrite (ramp_residual (5 / 48) 1); [cbn [repeat concat app]; repeat f_equal; lra|]. unfold ramp_map. cbn [map].
  replace (8 * PI * (5 / 48) / 5) with (PI / 6) by field. replace (PI / 6 - PI / 3) with (- (PI / 6)) by field. replace (PI / 6 + PI / 3) with (PI / 2) by field. rewrite cos_neg, cos_PI2, cos_PI6. pose proof (sqrt_lt_R0 3 ltac:(lra)) as S3.
  assert (8 * bowl_A ^ 2 * (1 + 0) < 8 * bowl_A ^ 2 * (1 + sqrt 3 / 2)) by (apply Rmult_lt_compat_l; lra). rewrite norm3 by lra. f_equal. f_equal. f_equal. field. lra.
Qed.
Lemma ramp_flat : residual_true illum_parabolic bowl (bowl_I ++ ramp_K 0) ramp_beam ramp_x ramp_y bowl_z (9 / 1000) 6 2 = Ok (concat (repeat [0; 1; 0] 3)).
Proof.
  pose proof bowl_A_big as A. rewrite (ramp_residual 0 0); [cbn [repeat concat app]; repeat f_equal; lra|]. unfold ramp_map. cbn [map].
  replace (8 * PI * 0 / 5) with 0 by field. rewrite cos_0. replace (0 - PI / 3) with (- (PI / 3)) by field. replace (0 + PI / 3) with (PI / 3) by field. rewrite cos_neg, cos_PI3. rewrite norm3 by lra. f_equal. f_equal. f_equal. field. lra.
Qed.
Lemma ramp_predictable t : 0 <= t <= 1 / 4 -> predictable (/ 2 ^ 52) (/ 2 ^ 40) 50 3 1 20 30 300 2 (9 / 1000) 6 ramp_x ramp_y bowl_z (/ 2 ^ 14) (bowl_I ++ ramp_K t).
Proof.
  intros Ht. pose proof bowl_A_big as A. exists 1%nat, 2, (-12), 2, 0, 0, (ramp_K t), (/ 2 ^ 30 + / 2 ^ 40), (4 * bowl_A ^ 2). split; [reflexivity|].
  split; [intros z Hz; split; [exact (ramp_reach t z Ht Hz)|pose proof (ramp_loss t z Ht Hz); lra]|]. split; [lra|].
  split. { intros i Hi. do 3 eexists. split; [exact (ramp_row t i Hi)|]. split; [right; right; left; reflexivity|]. split; [left; reflexivity|]. pose proof (ramp_slope t Ht). nra. }
  pose proof ramp_lit as O. set (o := over_samples _ _ _) in *. replace (INR 6) with 6 by (rewrite INR_IZR_INZ; reflexivity). rewrite (Rabs_pos_eq 2) by lra. assert (O2 : 0 <= (2 * o) ^ 2 <= 5184) by nra.
  assert (L : 5 * (/ 2 ^ 30 + / 2 ^ 40) + 6 ^ 2 * / 2 ^ 46 <= 6 * / 2 ^ 30) by lra. assert (L0 : 0 <= 5 * (/ 2 ^ 30 + / 2 ^ 40) + 6 ^ 2 * / 2 ^ 46) by lra. set (l := 5 * _ + _) in *.
  assert (X : l * (2 * o) ^ 2 <= 6 * / 2 ^ 30 * 5184) by (apply Rmult_le_compat; lra). assert (Y : 4 * (l * (2 * o) ^ 2) / (4 * bowl_A ^ 2) <= 6 * / 2 ^ 30 * 5184 / (85 / 100)).
  { replace (4 * (l * (2 * o) ^ 2) / (4 * bowl_A ^ 2)) with (l * (2 * o) ^ 2 * / bowl_A ^ 2) by (field; intros Z; rewrite Z in A; lra). unfold Rdiv. apply Rmult_le_compat; [apply Rmult_le_pos; lra|left; apply Rinv_0_lt_compat; lra|exact X|apply Rinv_le_contravar; lra]. }
  eapply Rle_trans; [apply Rplus_le_compat_r, Y|]. unfold unit_roundoff. lra.
Qed.
Lemma ramp_inside x : In x (concat ramp_x ++ concat ramp_y) -> well_inside bowl_step 6 x.
Proof.
  intros H. assert (X : x = 0 \/ x = bowl_step \/ x = - bowl_step) by (cbn in H; intuition congruence). destruct X as [->|[->| ->]].
  - apply bowl_inside. left. reflexivity.
  - apply bowl_inside. right. left. reflexivity.
  - unfold well_inside. rewrite Rabs_Ropp. apply bowl_inside. right. left. reflexivity.
Qed.
Lemma ramp_resolved b : In b ramp_beam -> resolved b.
Proof.
  pose proof tiny_1 as T1. intros [<-|[<-|[<-|[]]]] x y Hx Hy; cbn in Hx, Hy;
    destruct Hx as [Hx|[Hx|[Hx|[]]]], Hy as [Hy|[Hy|[Hy|[]]]]; injection Hx as <-; injection Hy as <-; try (left; reflexivity); right; first [rewrite Rabs_pos_eq by lra; lra|rewrite Rabs_left by lra; lra].
Qed.

(** ** Adding the squares from the last to the first *)
Fixpoint in_order (r : list R) : adding := match r with [] => One 0 | x :: r => Plus (One x) (in_order r) end.
Definition plain_cost (r : list R) : R := add64 (each64 square64 (in_order r)).
Lemma plain_accurate : accurate_cost (10 * / 2 ^ 52) 9 plain_cost.
Proof.
  replace (10 * / 2 ^ 52) with ((INR 9 + 1) * / 2 ^ 52) by (cbn [INR]; lra). apply tree_cost; [lia|cbn [INR]; lra|cbn [INR]; lra|]. intros r Lr. split.
  - exists 1%nat. split; [lia|]. replace (summands (in_order r)) with (r ++ repeat 0 1); [apply Permutation_refl|]. clear Lr. induction r as [|x r IH]; [reflexivity|]. cbn [in_order summands app] in *. rewrite <- IH. reflexivity.
  - rewrite <- Lr. clear Lr. induction r as [|x r IH]; cbn [in_order depth length]; lia.
Qed.
Lemma plain_pos r : 0 <= plain_cost r.
Proof. unfold plain_cost. induction r as [|x r IH]; cbn [in_order each64 add64] in *; apply fl_pos; [nra|]. assert (0 <= square64 x) by (apply fl_pos; nra). lra. Qed.

(** ** A fit of the tilt *)
Definition ramp_args : fit_args := {|
  fa_name := "ramp"; fa_pthto := ["w"]; fa_object := "test001"; fa_date := "now"; fa_freq := 32; fa_wavel := 9 / 1000; fa_d_z := bowl_z; fa_meanel := 0;
  fa_beam := ramp_beam; fa_u := ramp_x; fa_v := ramp_y; fa_order_max := 1;
  fa_illum := illum_parabolic; fa_illum_name := "parabolic"; fa_tel := bowl; fa_opd_name := "manual"; fa_tel_name := "manual";
  fa_resolution := 6; fa_box_factor := 2; fa_fit_previous := true; fa_config_file := Some ["w"; "notes.csv"]; fa_make_plots := true; fa_work_dir := None |}.
Definition ramp_config : config := {|
  cf_bound_max := [10; -1; 2; 1; 1; 5; 5; 1 / 4]; cf_bound_min := [0; -25; 1; -1; -1; -5; -5; 0];
  cf_excluded := [0; 1; 2; 3; 4; 5; 6]%Z; cf_fixed := [2; -12; 2; 0; 0; 0; 0; 0]; cf_init := [1; -10; 3 / 2; 0; 0; 0; 0; 1 / 10] |}.
Lemma ramp_valid : valid_config ramp_config.
Proof. repeat (split; [reflexivity|]). exists [0; 1; 2; 3; 4; 5; 6]%nat. split; [reflexivity|]. split; [repeat constructor; lia|]. cbn. intros e He. lia. Qed.
Lemma ramp_allowed p : allowed ramp_config 1 p <-> exists t, 0 <= t <= 1 / 4 /\ p = bowl_I ++ ramp_K t.
Proof.
  split.
  - intros [L H]. change (5 + coeffs 1)%nat with 8%nat in *. destruct p as [|p0 [|p1 [|p2 [|p3 [|p4 [|p5 [|p6 [|p7 [|]]]]]]]]]; try discriminate L.
    assert (X : forall i, (i < 7)%nat -> nth i [p0; p1; p2; p3; p4; p5; p6; p7] 0 = nth i (cf_fixed ramp_config) 0) by (intros i Hi; apply H; [lia|]; destruct i as [|[|[|[|[|[|[|]]]]]]]; cbn; try lia; tauto).
    pose proof (X 0%nat ltac:(lia)) as E0. pose proof (X 1%nat ltac:(lia)) as E1. pose proof (X 2%nat ltac:(lia)) as E2. pose proof (X 3%nat ltac:(lia)) as E3. pose proof (X 4%nat ltac:(lia)) as E4. pose proof (X 5%nat ltac:(lia)) as E5. pose proof (X 6%nat ltac:(lia)) as E6. cbn [nth cf_fixed ramp_config] in *. subst.
    destruct (H 7%nat ltac:(lia)) as [_ B]. cbn [nth cf_bound_min cf_bound_max ramp_config] in B. exists p7. split; [apply B; cbn; intuition discriminate|reflexivity].
  - intros (t & Ht & ->). split; [reflexivity|]. change (5 + coeffs 1)%nat with 8%nat. intros i Hi. destruct i as [|[|[|[|[|[|[|[|]]]]]]]]; [..|lia]; (split; intros I; [try reflexivity|]); try (exfalso; apply I; cbn; tauto).
    + exfalso. cbn in I. intuition discriminate.
    + cbn. lra.
Qed.
Definition ramp_oracle : oracle := PCov2.careful demo_oracle [5 / 48] (1 / 10).
