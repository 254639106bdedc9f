(** The Effelsberg telescope with a tilt, legs at the default angle of 20 degrees: the samples of PRound18.v, the maps of PRound21.v. *)
From Coq Require Import Reals String List Lra Lia ZArith Permutation.
From Verif Require Import PyBase PyLib Sums Num MZernike SZernike MMath MAperture MTel MRad MCore MFs MOut SOut SFit SBest MSim MAux SRecover SMath SCore STel SFloat MFloat MFloat2 MFloat3 MFloat4 MFloat5 MFloat6 MFloat8 SRad SGain SRound SRound2 SRound3 SRound4 SRound5 SRound7 SRound8 POrder64 PRound PRound2 PRound4 PRound5 PRound9 PRound10 PRad PAper PIllum PTel PGain PGain2 PFar PNorm PResid PSim PSim2 PSim3 PEnd PBest PDemo PRecover PCov2 PRound14 PRound15 PRound16 PRound18 PRound19 PRound20 PRound21 PRound25 PRound27 PRound30.
From Coquelicot Require Import Complex.
From Verif Require MAct MScript.
From Verif Require Import PRecover3.
Import ListNotations.
Open Scope R_scope.
Open Scope string_scope.
Open Scope list_scope.

Definition legs20 : R := PI / 9.
Definition hundred : telgeo := eff legs20.
Lemma legs20_range : 0 < legs20 <= PI / 4 /\ 0 < legs20 < PI / 2 /\ / 4 <= sin legs20 <= / 2 /\ / 4 <= tan legs20 <= 1.
Proof.
  pose proof PI_RGT_0 as P. pose proof PI2_1 as P2. pose proof PI_4 as P4. unfold legs20. split; [lra|]. split; [lra|].
  assert (S : / 4 <= sin (PI / 9)).
  { pose proof (sin_gt_0 (PI / 9) ltac:(lra) ltac:(lra)) as S0. assert (T : sin (PI / 3) = 3 * sin (PI / 9) - 4 * sin (PI / 9) ^ 3).
    { replace (PI / 3) with (2 * (PI / 9) + PI / 9) by field. rewrite sin_plus, sin_2a, cos_2a. pose proof (sin2_cos2 (PI / 9)) as N. unfold Rsqr in N. set (a := sin (PI / 9)) in *. set (b := cos (PI / 9)) in *. replace (2 * a * b * b + (b * b - a * a) * a) with (3 * a * (b * b) - a ^ 3) by ring. replace (b * b) with (1 - a * a) by lra. ring. }
    rewrite sin_PI3 in T. pose proof sqrt3_range. assert (0 < sin (PI / 9) ^ 3) by (apply pow_lt; lra). lra. }
  assert (S2 : sin (PI / 9) <= / 2) by (replace (/ 2) with (1 / 2) by lra; rewrite <- sin_PI6; apply sin_incr_1; lra).
  split; [lra|]. assert (Cp : 0 < cos (PI / 9)) by (apply cos_gt_0; lra). assert (C1 : cos (PI / 9) <= 1) by apply COS_bound. unfold tan. split.
  - apply Rmult_le_reg_r with (cos (PI / 9)); [exact Cp|]. unfold Rdiv. rewrite Rmult_assoc, Rinv_l by lra. lra.
  - rewrite <- tan_PI4. change (sin (PI / 9) / cos (PI / 9)) with (tan (PI / 9)). left. apply tan_increasing; lra.
Qed.
Lemma hund_slopes : accurate_slopes (/ 2 ^ 52) rounded_csc2 rounded_tan legs20.
Proof.
  destruct legs20_range as (_ & _ & S & T). assert (P : 0 < / 2 ^ 52) by (apply Rinv_0_lt_compat, pow_lt; lra).
  assert (Q : forall x, / 4 <= x -> Rabs (fl x - x) <= 2 * / 2 ^ 52 * x). { intros x Hx. eapply Rle_trans; [apply (fl_err (/ 2 ^ 52) x u_52)|]. rewrite Rabs_pos_eq by lra. pose proof tiny_1. replace (2 * / 2 ^ 52 * x) with (/ 2 ^ 52 * (2 * x)) by ring. apply Rmult_le_compat_l; lra. }
  split; unfold rounded_csc2, rounded_tan; [|apply Q, T]. assert (S2 : 0 < sin legs20 ^ 2 <= 1) by (split; [apply pow_lt; lra|nra]). assert (I : 1 <= / sin legs20 ^ 2) by (rewrite <- Rinv_1; apply Rinv_le_contravar; lra).
  eapply Rle_trans; [apply Q; lra|]. apply Rmult_le_compat_r; lra.
Qed.
Lemma hund_corner : far_corner legs20 (PTel.CC legs20) (1 + PTel.dd legs20) /\ 34 <= PTel.CC legs20 <= 50.
Proof.
  destruct legs20_range as (_ & A & _ & T). destruct (PTel.corner legs20 A) as (K1 & K2 & K3). split; [split; [exact K1|]; split; [exact K2|exact K3]|]. rewrite K2 in K3. set (C := PTel.CC legs20) in *. set (t := tan legs20) in *.
  assert (0 < C * t <= C) by (split; [apply Rmult_lt_0_compat; lra|rewrite <- (Rmult_1_r C) at 2; apply Rmult_le_compat_l; lra]). split; [apply Rnot_lt_le; intros H1; nra|nra].
Qed.
Lemma hund_block i j : (i < 6)%nat -> (j < 6)%nat -> block_effelsberg legs20 (sample (50 * 2) 6 i) (sample (50 * 2) 6 j) = if (((i =? 2) || (i =? 3)) && ((j =? 2) || (j =? 3)))%nat%bool then 1 else 0.
Proof.
  intros Hi Hj. destruct legs20_range as (_ & A & S & _). destruct hund_corner as [_ HC]. assert (Sn : sin legs20 <> 0) by lra. destruct (PTel.block_effelsberg_iff legs20 (sample (50 * 2) 6 i) (sample (50 * 2) 6 j) Sn) as [V W].
  pose proof (bowl_cases i Hi) as Ci. pose proof (bowl_cases j Hj) as Cj. cbv zeta in Ci, Cj. set (x := sample (50 * 2) 6 i) in *. set (y := sample (50 * 2) 6 j) in *.
  assert (Off : 50 ^ 2 <= x ^ 2 + y ^ 2 -> block_effelsberg legs20 x y = 0). { intros Ho. destruct V as [V|V]; [exact V|]. apply (proj1 W) in V as ((V1 & V2) & _). lra. }
  destruct Ci as [(I1 & X1 & X2)|(I1 & X1)]; destruct Cj as [(J1 & Y1 & Y2)|(J1 & Y1)].
  - replace ((((i =? 2) || (i =? 3)) && ((j =? 2) || (j =? 3)))%nat%bool) with true by (destruct I1 as [-> | ->]; destruct J1 as [-> | ->]; reflexivity).
    apply W. pose proof (Rle_abs x). pose proof (Rle_abs y). pose proof (Rle_abs (- x)) as Nx. pose proof (Rle_abs (- y)) as Ny. rewrite Rabs_Ropp in Nx, Ny. split; [unfold annulus; lra|]. split; [unfold legs; lra|]. unfold shades, shade. intros [[Q|Q]|[[Q|Q]|[[Q|Q]|[Q|Q]]]]; lra.
  - replace ((((i =? 2) || (i =? 3)) && ((j =? 2) || (j =? 3)))%nat%bool) with false by (symmetry; apply Bool.andb_false_iff; right; apply Bool.orb_false_iff; split; apply Nat.eqb_neq; lia). apply Off. destruct Y1 as [[Y1 _]|[Y1 _]]; lra.
  - replace ((((i =? 2) || (i =? 3)) && ((j =? 2) || (j =? 3)))%nat%bool) with false by (symmetry; apply Bool.andb_false_iff; left; apply Bool.orb_false_iff; split; apply Nat.eqb_neq; lia). apply Off. destruct X1 as [[X1 _]|[X1 _]]; lra.
  - replace ((((i =? 2) || (i =? 3)) && ((j =? 2) || (j =? 3)))%nat%bool) with false by (symmetry; apply Bool.andb_false_iff; left; apply Bool.orb_false_iff; split; apply Nat.eqb_neq; lia). apply Off. pose proof (pow2_ge_0 y). destruct X1 as [[X1 _]|[X1 _]]; lra.
Qed.
Lemma hund_reach t z : 0 <= t <= 1 / 4 -> In z bowl_z -> reach_effelsberg (/ 2 ^ 52) legs20 (PTel.CC legs20) (1 + PTel.dd legs20) 1 (ramp_K t) 2 (9 / 1000) z 2 (-12) 2 0 0 6.
Proof.
  intros Ht Hz. destruct legs20_range as (L1 & _ & L3 & _). destruct hund_corner as [Fc HC]. destruct (ramp_reach t z Ht Hz) as (H1 & H2 & H3 & H4 & H5 & H6 & H7 & H8). assert (P : 0 < / 2 ^ 52) by (apply Rinv_0_lt_compat, pow_lt; lra).
  assert (P100 : / 2 ^ 100 <= / 1000). { apply Rinv_le_contravar; [lra|]. apply Rle_trans with (2 ^ 10); [lra|apply Rle_pow; [lra|lia]]. } assert (Q100 : 1000 <= 2 ^ 100) by (apply Rle_trans with (2 ^ 10); [lra|apply Rle_pow; [lra|lia]]).
  split; [exact H1|]. split; [exact H2|]. split.
  { assert (INR 6 = 6) as -> by (rewrite INR_IZR_INZ; reflexivity). assert (Z : z = 0 \/ / 2 ^ 100 <= Rabs z). { destruct Hz as [<-|[<-|[<-|[]]]]; [right; rewrite Rabs_pos_eq; lra|left; reflexivity|right; rewrite Rabs_Ropp, Rabs_pos_eq; lra]. } repeat match goal with |- _ /\ _ => split end; try lra; try lia; try exact Z. }
  split; [split; [exact L1|]; split; [lra|exact Fc]|]. split.
  { intros i j Hi Hj. cbv zeta. pose proof (bowl_cases i Hi) as Ci. pose proof (bowl_cases j Hj) as Cj. pose proof (hund_block i j Hi Hj) as Bk. cbv zeta in Ci, Cj. set (x := sample (50 * 2) 6 i) in *. set (y := sample (50 * 2) 6 j) in *.
    assert (Sx : x ^ 2 = 20 ^ 2 /\ Rabs x = 20 \/ x ^ 2 = 60 ^ 2 /\ Rabs x = 60 \/ x ^ 2 = 100 ^ 2 /\ Rabs x = 100) by tauto. assert (Sy : y ^ 2 = 20 ^ 2 /\ Rabs y = 20 \/ y ^ 2 = 60 ^ 2 /\ Rabs y = 60 \/ y ^ 2 = 100 ^ 2 /\ Rabs y = 100) by tauto.
    assert (E1 : 800 * / 2 ^ 52 * (50 * 2) <= / 1000) by lra. assert (E2 : 800 * / 2 ^ 52 * (50 * 2) ^ 2 <= / 1000) by lra. assert (E3 : 100 * / 2 ^ 52 * (50 * 2) ^ 2 <= / 1000) by lra. split.
    - clear Ci Cj Bk. split; [split; [|split]|].
      + destruct Sx as [[X1 _]|[[X1 _]|[X1 _]]]; destruct Sy as [[Y1 _]|[[Y1 _]|[Y1 _]]]; rewrite X1, Y1; first [rewrite Rabs_left by lra; lra|rewrite Rabs_pos_eq by lra; lra].
      + destruct Sx as [[X1 _]|[[X1 _]|[X1 _]]]; destruct Sy as [[Y1 _]|[[Y1 _]|[Y1 _]]]; rewrite X1, Y1; rewrite Rabs_pos_eq by lra; lra.
      + intros w edge Hw He. assert (Wx : Rabs w = 20 \/ Rabs w = 60 \/ Rabs w = 100) by (destruct Hw as [-> | ->]; tauto). destruct He as [-> | ->]; destruct Wx as [-> |[-> | ->]]; first [rewrite Rabs_left by lra; lra|rewrite Rabs_pos_eq by lra; lra].
      + intros p q Hpq. assert (Wp : Rabs p = 20 \/ Rabs p = 60 \/ Rabs p = 100) by (destruct Hpq as [[-> _]|[-> _]]; tauto). split; [destruct Wp as [-> |[-> | ->]]; first [rewrite Rabs_left by lra; lra|rewrite Rabs_pos_eq by lra; lra]|]. intros R. exfalso. destruct Wp as [W|[W|W]]; rewrite W in R; lra.
    - intros Ho. rewrite !Rminus_0_r. rewrite Bk in Ho. destruct Ci as [(I1 & X1 & _)|(I1 & _)]; [|exfalso; apply Ho; replace ((i =? 2) || (i =? 3))%nat%bool with false by (symmetry; apply Bool.orb_false_iff; split; apply Nat.eqb_neq; lia); reflexivity].
      destruct Cj as [(J1 & Y1 & _)|(J1 & _)]; [|exfalso; apply Ho; replace ((j =? 2) || (j =? 3))%nat%bool with false by (symmetry; apply Bool.orb_false_iff; split; apply Nat.eqb_neq; lia); rewrite Bool.andb_false_r; reflexivity]. rewrite X1, Y1. lra. }
  split; [exact H5|]. split; [exact H6|]. split; [exact H7|exact H8].
Qed.
Lemma hund_open : block_effelsberg legs20 (sample (50 * 2) 6 2) (sample (50 * 2) 6 3) <> 0.
Proof. rewrite hund_block by lia. cbn. lra. Qed.
Lemma hund_aperture t z : exists E c0, aperture illum_parabolic hundred bowl_I (ramp_K t) z (9 / 1000) = Ok E /\
  forall i j, (i < 6)%nat -> (j < 6)%nat -> E (sample (50 * 2) 6 i) (sample (50 * 2) 6 j) = if (((i =? 2) || (i =? 3)) && ((j =? 2) || (j =? 3)))%nat%bool then Cmult (RtoC bowl_A) (cis (c0 + 4 * PI * t / 5 * (sample (50 * 2) 6 i / 20))) else RtoC 0.
Proof.
  destruct (proj1 (par_arity bowl_I 50) eq_refl) as [Ea EI]. destruct (aperture_ok illum_parabolic hundred bowl_I (ramp_K t) z (9 / 1000) 1 Ea eq_refl EI) as (E & HE & HV).
  exists E, (2 * PI * (z * ((1 - (sqrt 800 / (2 * 30)) ^ 2) / (1 + (sqrt 800 / (2 * 30)) ^ 2) + (1 - (sqrt 800 / (2 * (38739435 / 100000))) ^ 2) / (1 + (sqrt 800 / (2 * (38739435 / 100000))) ^ 2)) / (9 / 1000))). split; [exact HE|]. intros i j Hi Hj. rewrite HV. cbn [hundred eff block_dist opd_func tel_pr]. rewrite (hund_block i j Hi Hj).
  destruct ((((i =? 2) || (i =? 3)) && ((j =? 2) || (j =? 3)))%nat%bool) eqn:Bk.
  - apply Bool.andb_true_iff in Bk as [B1 B2]. apply Bool.orb_true_iff in B1. apply Bool.orb_true_iff in B2. rewrite !Nat.eqb_eq in B1, B2.
    pose proof (bowl_cases i Hi) as Ci. pose proof (bowl_cases j Hj) as Cj. cbv zeta in Ci, Cj. set (x := sample (50 * 2) 6 i) in *. set (y := sample (50 * 2) 6 j) in *. destruct Ci as [(_ & X1 & _)|(I1 & _)]; [|contradiction]. destruct Cj as [(_ & Y1 & _)|(J1 & _)]; [|contradiction].
    assert (S8 : x ^ 2 + y ^ 2 = 800) by lra. unfold opd_effelsberg. cbv zeta. pose proof (PPolar.cart2pol_cos x y) as C. rewrite S8 in *.
    assert (R0 : sqrt 800 / 50 <> 0) by (pose proof (sqrt_lt_R0 800 ltac:(lra)); lra). unfold ramp_K. rewrite (series_one t _ _ R0). f_equal.
    + f_equal. rewrite Rmult_1_l. rewrite (par_inside 2 (-12) 2 0 0 50 Ea x y ltac:(lra) EI); rewrite !Rminus_0_r, S8; [reflexivity|lra].
    + f_equal. replace (sqrt 800 / 50 * cos (arctan2 y x)) with (x / 50) by (rewrite <- C at 1; field).
      match goal with |- context [z * ?w / (9 / 1000)] => set (v := w) end. field.
  - rewrite Rmult_0_l. apply Cmult_0_l.
Qed.
Lemma hund_row t i : (i < 3)%nat -> model_row illum_parabolic hundred (bowl_I ++ ramp_K t) ramp_x ramp_y bowl_z (9 / 1000) 6 2 i = Ok (ramp_map t).
Proof.
  intros Hi. assert (exists z, nth_error bowl_z i = Some z /\ nth_error ramp_x i = Some [0; bowl_step; - bowl_step] /\ nth_error ramp_y i = Some [0; 0; 0]) as (z & Ez & Ex & Ey) by (destruct i as [|[|[|]]]; [| | |lia]; eexists; repeat split; reflexivity).
  destruct (hund_aperture t z) as (E & c0 & HE & HV). pose proof (ramp_power E c0 (4 * PI * t / 5) HV) as PW.
  assert (R : exists uvF, radiation_pattern illum_parabolic hundred bowl_I (ramp_K t) z (9 / 1000) 6 2 = Ok uvF). { rewrite rad_unfold by lia. cbv zeta. rewrite HE. cbn [bind]. eexists. reflexivity. } destruct R as [[[ua va] F] R].
  destruct (axes_api illum_parabolic hundred bowl_I (ramp_K t) z (9 / 1000) 6 2 ua va F ltac:(lra) ltac:(cbn; lra) ltac:(lra) R) as (Q & Lu & LF & LR & _ & A). cbv zeta in A. destruct A as (Hs & An & _ & Inc). subst va. cbn [tel_pr hundred eff] in An, Hs. fold (grid_step 50 (9 / 1000) 6 2) in An, Hs. fold bowl_step in An, Hs.
  destruct (rad_inv _ _ _ _ _ _ _ _ _ _ _ R) as (_ & E' & HE' & EF & _ & _). rewrite HE in HE'. apply Ok_inj in HE'. subst E'. cbn [tel_pr hundred eff] in EF.
  unfold model_row, py_get. rewrite Ez, Ex, Ey. cbn [bind]. change (firstn 5 (bowl_I ++ ramp_K t)) with bowl_I. change (skipn 5 (bowl_I ++ ramp_K t)) with (ramp_K t). rewrite R. cbn [bind]. unfold interp_points. cbn [length Nat.eqb forallb].
  assert (U3 : nth 3 ua 0 = 0) by (rewrite An by lia; change (6 / 2)%nat with 3%nat; ring). assert (U4 : nth 4 ua 0 = bowl_step) by (rewrite An by lia; change (6 / 2)%nat with 3%nat; cbn [INR]; ring). assert (U2 : nth 2 ua 0 = - bowl_step) by (rewrite An by lia; change (6 / 2)%nat with 3%nat; cbn [INR]; ring).
  assert (IB : forall k, (k < 6)%nat -> in_bounds ua (nth k ua 0) = true). { intros k Hk. unfold in_bounds. rewrite Lu. apply Bool.andb_true_iff. split; apply Rleb_true. 
    - destruct (Nat.eq_dec k 0) as [Z|]; [rewrite Z; apply Rle_refl|left; apply Inc; lia].
    - destruct (Nat.eq_dec k 5) as [Z|]; [rewrite Z; apply Rle_refl|left; apply Inc; cbn; lia]. }
  pose proof (IB 3%nat ltac:(lia)) as I3. pose proof (IB 4%nat ltac:(lia)) as I4. pose proof (IB 2%nat ltac:(lia)) as I2. rewrite U3 in I3. rewrite U4 in I4. rewrite U2 in I2. rewrite I3, I4, I2. cbn [andb map2].
  assert (Ic : increasing ua) by (intros a b Hab; apply Inc; lia).
  assert (W : forall k, (k < 6)%nat -> interp2 ua ua (power_pattern F) (nth k ua 0) 0 = Cmod (centred E (50 * 2) 6 0 (Z.of_nat k - 3)) ^ 2).
  { intros k Hk. replace (interp2 ua ua (power_pattern F) (nth k ua 0) 0) with (interp2 ua ua (power_pattern F) (nth k ua 0) (nth 3 ua 0)) by (rewrite U3; reflexivity). rewrite (interp_node ua ua (power_pattern F) k 3 Ic Ic) by lia. rewrite (power_at F 3 k 6 LF LR) by lia. rewrite EF, rad_sample by lia. change (6 / 2)%nat with 3%nat. reflexivity. }
  pose proof (W 3%nat ltac:(lia)) as W3. pose proof (W 4%nat ltac:(lia)) as W4. pose proof (W 2%nat ltac:(lia)) as W2. rewrite U3 in W3. rewrite U4 in W4. rewrite U2 in W2. rewrite PW in W2, W3, W4. rewrite W3, W4, W2.
  change (IZR (Z.of_nat 3 - 3)) with 0. change (IZR (Z.of_nat 4 - 3)) with 1. change (IZR (Z.of_nat 2 - 3)) with (-1). unfold ramp_map.
  replace (2 * (4 * PI * t / 5) - 0 * (PI / 3)) with (8 * PI * t / 5) by field. replace (2 * (4 * PI * t / 5) - 1 * (PI / 3)) with (8 * PI * t / 5 - PI / 3) by field. replace (2 * (4 * PI * t / 5) - -1 * (PI / 3)) with (8 * PI * t / 5 + PI / 3) by field. reflexivity.
Qed.
Lemma hund_lit : 0 <= over_samples (50 * 2) 6 (block_effelsberg legs20) <= 36.
Proof.
  assert (B : forall x y, 0 <= block_effelsberg legs20 x y <= 1) by (intros x y; destruct (PTel.block_effelsberg_01 legs20 x y) as [-> | ->]; lra).
  split; [apply over_nonneg; intros; apply B|]. eapply Rle_trans; [apply (over_le _ _ _ (fun _ _ => 1)); intros; apply B|]. unfold over_samples. cbn [Rsum]. lra.
Qed.
Lemma hund_residual t q : norm_all (map Fin (ramp_map t)) = Ok [1; q; 0] ->
  residual_true illum_parabolic hundred (bowl_I ++ ramp_K t) ramp_beam ramp_x ramp_y bowl_z (9 / 1000) 6 2 = Ok (concat (repeat [0; 1 - q; 0] 3)).
Proof.
  intros N. unfold residual_true. cbv zeta. cbn [ramp_beam map].
  rewrite (fill3 _ _ _ _ _ _ _ (hund_row t 0 ltac:(lia)) (hund_row t 1 ltac:(lia)) (hund_row t 2 ltac:(lia))) by reflexivity. cbn [bind]. rewrite !norm_rows_eq. unfold ramp_beam. cbn [mapM map repeat].
  rewrite (norm3 5 5 1), (norm3 7 7 2), (norm3 3 3 0) by lra. cbn [bind]. rewrite !N. cbn [bind map2 concat app]. repeat f_equal; lra.
Qed.
Lemma hund_exact : residual_true illum_parabolic hundred (bowl_I ++ ramp_K (5 / 48)) ramp_beam ramp_x ramp_y bowl_z (9 / 1000) 6 2 = Ok (repeat 0 9).
Proof.
  pose proof bowl_A_big as A. rewrite (hund_residual (5 / 48) 1); [cbn [repeat concat app]; repeat f_equal; lra|]. unfold ramp_map. cbn [map].
  replace (8 * PI * (5 / 48) / 5) with (PI / 6) by field. replace (PI / 6 - PI / 3) with (- (PI / 6)) by field. replace (PI / 6 + PI / 3) with (PI / 2) by field. rewrite cos_neg, cos_PI2, cos_PI6. pose proof (sqrt_lt_R0 3 ltac:(lra)) as S3.
  assert (8 * bowl_A ^ 2 * (1 + 0) < 8 * bowl_A ^ 2 * (1 + sqrt 3 / 2)) by (apply Rmult_lt_compat_l; lra). rewrite norm3 by lra. f_equal. f_equal. f_equal. field. lra.
Qed.
Lemma hund_flat : residual_true illum_parabolic hundred (bowl_I ++ ramp_K 0) ramp_beam ramp_x ramp_y bowl_z (9 / 1000) 6 2 = Ok (concat (repeat [0; 1; 0] 3)).
Proof.
  pose proof bowl_A_big as A. rewrite (hund_residual 0 0); [cbn [repeat concat app]; repeat f_equal; lra|]. unfold ramp_map. cbn [map].
  replace (8 * PI * 0 / 5) with 0 by field. rewrite cos_0. replace (0 - PI / 3) with (- (PI / 3)) by field. replace (0 + PI / 3) with (PI / 3) by field. rewrite cos_neg, cos_PI3. rewrite norm3 by lra. f_equal. f_equal. f_equal. field. lra.
Qed.
Lemma hund_predictable t : 0 <= t <= 1 / 4 -> predictable_effelsberg (/ 2 ^ 52) (/ 2 ^ 40) legs20 2 (9 / 1000) 6 ramp_x ramp_y bowl_z (/ 2 ^ 14) (bowl_I ++ ramp_K t).
Proof.
  intros Ht. pose proof bowl_A_big as A. exists (PTel.CC legs20), (1 + PTel.dd legs20), 1%nat, 2, (-12), 2, 0, 0, (ramp_K t), (/ 2 ^ 30 + / 2 ^ 40), (4 * bowl_A ^ 2). split; [reflexivity|].
  split; [intros z Hz; split; [exact (hund_reach t z Ht Hz)|pose proof (ramp_loss t z Ht Hz); lra]|]. split; [lra|].
  split. { intros i Hi. do 3 eexists. split; [exact (hund_row t i Hi)|]. split; [right; right; left; reflexivity|]. split; [left; reflexivity|]. pose proof (ramp_slope t Ht). nra. }
  pose proof hund_lit as O. set (o := over_samples _ _ _) in *. replace (INR 6) with 6 by (rewrite INR_IZR_INZ; reflexivity). rewrite (Rabs_pos_eq 2) by lra. assert (O2 : 0 <= (2 * o) ^ 2 <= 5184) by nra.
  assert (L : 5 * (/ 2 ^ 30 + / 2 ^ 40) + 6 ^ 2 * / 2 ^ 46 <= 6 * / 2 ^ 30) by lra. assert (L0 : 0 <= 5 * (/ 2 ^ 30 + / 2 ^ 40) + 6 ^ 2 * / 2 ^ 46) by lra. set (l := 5 * _ + _) in *.
  assert (X : l * (2 * o) ^ 2 <= 6 * / 2 ^ 30 * 5184) by (apply Rmult_le_compat; lra). assert (Y : 4 * (l * (2 * o) ^ 2) / (4 * bowl_A ^ 2) <= 6 * / 2 ^ 30 * 5184 / (85 / 100)).
  { replace (4 * (l * (2 * o) ^ 2) / (4 * bowl_A ^ 2)) with (l * (2 * o) ^ 2 * / bowl_A ^ 2) by (field; intros Z; rewrite Z in A; lra). unfold Rdiv. apply Rmult_le_compat; [apply Rmult_le_pos; lra|left; apply Rinv_0_lt_compat; lra|exact X|apply Rinv_le_contravar; lra]. }
  eapply Rle_trans; [apply Rplus_le_compat_r, Y|]. unfold unit_roundoff. lra.
Qed.

Definition hund_args : fit_args := {|
  fa_name := "hundred"; fa_pthto := ["w"]; fa_object := "test001"; fa_date := "now"; fa_freq := 32; fa_wavel := 9 / 1000; fa_d_z := bowl_z; fa_meanel := 0;
  fa_beam := ramp_beam; fa_u := ramp_x; fa_v := ramp_y; fa_order_max := 1;
  fa_illum := illum_parabolic; fa_illum_name := "parabolic"; fa_tel := hundred; fa_opd_name := "effelsberg"; fa_tel_name := "effelsberg";
  fa_resolution := 6; fa_box_factor := 2; fa_fit_previous := true; fa_config_file := Some ["w"; "notes.csv"]; fa_make_plots := true; fa_work_dir := None |}.
Lemma hund_script : hundred = MScript.su_tel (MScript.effelsberg 20 "effelsberg").
Proof. unfold hundred, eff, legs20. cbn [MScript.su_tel MScript.effelsberg]. replace (MAct.deg2rad 20) with (PI / 9); [reflexivity|]. unfold MAct.deg2rad. field. Qed.
