(** The telescope of PRound31.v with the gaussian illumination of PRound33.v. *)
From Coq Require Import Reals String List Lra Lia ZArith Permutation.
From Verif Require Import PyBase PyLib Sums Num MZernike SZernike MMath MAperture MTel MRad MCore MFs MOut SOut SFit SBest MSim MAux SRecover SMath SCore STel SFloat MFloat MFloat2 MFloat3 MFloat4 MFloat5 MFloat6 MFloat7 MFloat8 SRad SGain SRound SRound2 SRound3 SRound4 SRound5 SRound6 SRound7 SRound8 SRound9 SRound10 POrder64 PRound PRound2 PRound4 PRound5 PRound9 PRound10 PRad PAper PIllum PTel PGain PGain2 PFar PNorm PResid PSim PSim2 PSim3 PEnd PBest PDemo PRecover PCov2 PRound14 PRound15 PRound16 PRound18 PRound19 PRound20 PRound21 PRound25 PRound22 PRound24 PRound27 PRound31 PRound33 PRound34 PRound35.
From Coquelicot Require Import Complex.
From Verif Require MAct MScript.
From Verif Require Import PRecover3.
Import ListNotations.
Open Scope R_scope.
Open Scope string_scope.
Open Scope list_scope.

Lemma hgau_reach t z : 0 <= t <= 1 / 4 -> In z bowl_z -> reach_eff_gauss (/ 2 ^ 52) legs20 (PTel.CC legs20) (1 + PTel.dd legs20) 1 (ramp_K t) 2 (9 / 1000) z 2 (-12) 0 0 6.
Proof.
  intros Ht Hz. destruct (hund_reach t z Ht Hz) as (H1 & H2 & H3 & H4 & H5 & _). destruct (bell_reach t z Ht Hz) as (_ & _ & _ & _ & B5 & B6 & _ & B8).
  split; [exact H1|]. split; [exact H2|]. split; [exact H3|]. split; [exact H4|]. split; [intros i j Hi Hj; exact (proj1 (H5 i j Hi Hj))|]. split; [exact B5|]. split; [exact B6|]. split; [lra|exact B8].
Qed.
Lemma hgau_lit : over_samples (50 * 2) 6 (block_effelsberg legs20) = 4.
Proof. unfold over_samples. cbn [Rsum]. unfold over_samples. fold (sample (50 * 2) 6). rewrite !hund_block by lia. cbn [Nat.eqb orb andb]. lra. Qed.
Lemma hgau_aperture t z : exists E c0, aperture illum_gauss hundred bowl_I (ramp_K t) z (9 / 1000) = Ok E /\
  forall i j, (i < 6)%nat -> (j < 6)%nat -> E (sample (50 * 2) 6 i) (sample (50 * 2) 6 j) = if (((i =? 2) || (i =? 3)) && ((j =? 2) || (j =? 3)))%nat%bool then Cmult (RtoC bell_A) (cis (c0 + 4 * PI * t / 5 * (sample (50 * 2) 6 i / 20))) else RtoC 0.
Proof.
  destruct bell_illum as (Ea & EI & EV). destruct (aperture_ok illum_gauss hundred bowl_I (ramp_K t) z (9 / 1000) 1 Ea eq_refl EI) as (E & HE & HV).
  exists E, (2 * PI * (z * ((1 - (sqrt 800 / (2 * 30)) ^ 2) / (1 + (sqrt 800 / (2 * 30)) ^ 2) + (1 - (sqrt 800 / (2 * (38739435 / 100000))) ^ 2) / (1 + (sqrt 800 / (2 * (38739435 / 100000))) ^ 2)) / (9 / 1000))). split; [exact HE|]. intros i j Hi Hj. rewrite HV. cbn [hundred eff block_dist opd_func tel_pr]. rewrite (hund_block i j Hi Hj).
  destruct ((((i =? 2) || (i =? 3)) && ((j =? 2) || (j =? 3)))%nat%bool) eqn:Bk.
  - apply Bool.andb_true_iff in Bk as [B1 B2]. apply Bool.orb_true_iff in B1. apply Bool.orb_true_iff in B2. rewrite !Nat.eqb_eq in B1, B2.
    pose proof (bowl_cases i Hi) as Ci. pose proof (bowl_cases j Hj) as Cj. cbv zeta in Ci, Cj. set (x := sample (50 * 2) 6 i) in *. set (y := sample (50 * 2) 6 j) in *. destruct Ci as [(_ & X1 & _)|(I1 & _)]; [|contradiction]. destruct Cj as [(_ & Y1 & _)|(J1 & _)]; [|contradiction].
    assert (S8 : x ^ 2 + y ^ 2 = 800) by lra. unfold opd_effelsberg. cbv zeta. pose proof (PPolar.cart2pol_cos x y) as C. rewrite S8 in *.
    assert (R0 : sqrt 800 / 50 <> 0) by (pose proof (sqrt_lt_R0 800 ltac:(lra)); lra). unfold ramp_K. rewrite (series_one t _ _ R0). f_equal.
    + f_equal. rewrite Rmult_1_l. apply EV, S8.
    + f_equal. replace (sqrt 800 / 50 * cos (arctan2 y x)) with (x / 50) by (rewrite <- C at 1; field).
      match goal with |- context [z * ?w / (9 / 1000)] => set (v := w) end. field.
  - rewrite Rmult_0_l. apply Cmult_0_l.
Qed.
Lemma hgau_row t i : (i < 3)%nat -> model_row illum_gauss hundred (bowl_I ++ ramp_K t) ramp_x ramp_y bowl_z (9 / 1000) 6 2 i = Ok (bell_map t).
Proof.
  intros Hi. assert (exists z, nth_error bowl_z i = Some z /\ nth_error ramp_x i = Some [0; bowl_step; - bowl_step] /\ nth_error ramp_y i = Some [0; 0; 0]) as (z & Ez & Ex & Ey) by (destruct i as [|[|[|]]]; [| | |lia]; eexists; repeat split; reflexivity).
  destruct (hgau_aperture t z) as (E & c0 & HE & HV). pose proof (bell_power E c0 (4 * PI * t / 5) HV) as PW.
  assert (R : exists uvF, radiation_pattern illum_gauss hundred bowl_I (ramp_K t) z (9 / 1000) 6 2 = Ok uvF). { rewrite rad_unfold by lia. cbv zeta. rewrite HE. cbn [bind]. eexists. reflexivity. } destruct R as [[[ua va] F] R].
  destruct (axes_api illum_gauss hundred bowl_I (ramp_K t) z (9 / 1000) 6 2 ua va F ltac:(lra) ltac:(cbn; lra) ltac:(lra) R) as (Q & Lu & LF & LR & _ & A). cbv zeta in A. destruct A as (Hs & An & _ & Inc). subst va. cbn [tel_pr hundred eff] in An, Hs. fold (grid_step 50 (9 / 1000) 6 2) in An, Hs. fold bowl_step in An, Hs.
  destruct (rad_inv _ _ _ _ _ _ _ _ _ _ _ R) as (_ & E' & HE' & EF & _ & _). rewrite HE in HE'. apply Ok_inj in HE'. subst E'. cbn [tel_pr hundred eff] in EF.
  unfold model_row, py_get. rewrite Ez, Ex, Ey. cbn [bind]. change (firstn 5 (bowl_I ++ ramp_K t)) with bowl_I. change (skipn 5 (bowl_I ++ ramp_K t)) with (ramp_K t). rewrite R. cbn [bind]. unfold interp_points. cbn [length Nat.eqb forallb].
  assert (U3 : nth 3 ua 0 = 0) by (rewrite An by lia; change (6 / 2)%nat with 3%nat; ring). assert (U4 : nth 4 ua 0 = bowl_step) by (rewrite An by lia; change (6 / 2)%nat with 3%nat; cbn [INR]; ring). assert (U2 : nth 2 ua 0 = - bowl_step) by (rewrite An by lia; change (6 / 2)%nat with 3%nat; cbn [INR]; ring).
  assert (IB : forall k, (k < 6)%nat -> in_bounds ua (nth k ua 0) = true). { intros k Hk. unfold in_bounds. rewrite Lu. apply Bool.andb_true_iff. split; apply Rleb_true. 
    - destruct (Nat.eq_dec k 0) as [Z|]; [rewrite Z; apply Rle_refl|left; apply Inc; lia].
    - destruct (Nat.eq_dec k 5) as [Z|]; [rewrite Z; apply Rle_refl|left; apply Inc; cbn; lia]. }
  pose proof (IB 3%nat ltac:(lia)) as I3. pose proof (IB 4%nat ltac:(lia)) as I4. pose proof (IB 2%nat ltac:(lia)) as I2. rewrite U3 in I3. rewrite U4 in I4. rewrite U2 in I2. rewrite I3, I4, I2. cbn [andb map2].
  assert (Ic : increasing ua) by (intros a b Hab; apply Inc; lia).
  assert (W : forall k, (k < 6)%nat -> interp2 ua ua (power_pattern F) (nth k ua 0) 0 = Cmod (centred E (50 * 2) 6 0 (Z.of_nat k - 3)) ^ 2).
  { intros k Hk. replace (interp2 ua ua (power_pattern F) (nth k ua 0) 0) with (interp2 ua ua (power_pattern F) (nth k ua 0) (nth 3 ua 0)) by (rewrite U3; reflexivity). rewrite (interp_node ua ua (power_pattern F) k 3 Ic Ic) by lia. rewrite (power_at F 3 k 6 LF LR) by lia. rewrite EF, rad_sample by lia. change (6 / 2)%nat with 3%nat. reflexivity. }
  pose proof (W 3%nat ltac:(lia)) as W3. pose proof (W 4%nat ltac:(lia)) as W4. pose proof (W 2%nat ltac:(lia)) as W2. rewrite U3 in W3. rewrite U4 in W4. rewrite U2 in W2. rewrite PW in W2, W3, W4. rewrite W3, W4, W2.
  change (IZR (Z.of_nat 3 - 3)) with 0. change (IZR (Z.of_nat 4 - 3)) with 1. change (IZR (Z.of_nat 2 - 3)) with (-1). unfold bell_map.
  replace (2 * (4 * PI * t / 5) - 0 * (PI / 3)) with (8 * PI * t / 5) by field. replace (2 * (4 * PI * t / 5) - 1 * (PI / 3)) with (8 * PI * t / 5 - PI / 3) by field. replace (2 * (4 * PI * t / 5) - -1 * (PI / 3)) with (8 * PI * t / 5 + PI / 3) by field. reflexivity.
Qed.
Lemma hgau_residual t q : norm_all (map Fin (bell_map t)) = Ok [1; q; 0] ->
  residual_true illum_gauss hundred (bowl_I ++ ramp_K t) ramp_beam ramp_x ramp_y bowl_z (9 / 1000) 6 2 = Ok (concat (repeat [0; 1 - q; 0] 3)).
Proof.
  intros N. unfold residual_true. cbv zeta. cbn [ramp_beam map].
  rewrite (fill3 _ _ _ _ _ _ _ (hgau_row t 0 ltac:(lia)) (hgau_row t 1 ltac:(lia)) (hgau_row t 2 ltac:(lia))) by reflexivity. cbn [bind]. rewrite !norm_rows_eq. unfold ramp_beam. cbn [mapM map repeat].
  rewrite (norm3 5 5 1), (norm3 7 7 2), (norm3 3 3 0) by lra. cbn [bind]. rewrite !N. cbn [bind map2 concat app]. repeat f_equal; lra.
Qed.
Lemma hgau_exact : residual_true illum_gauss hundred (bowl_I ++ ramp_K (5 / 48)) ramp_beam ramp_x ramp_y bowl_z (9 / 1000) 6 2 = Ok (repeat 0 9).
Proof.
  pose proof bell_A_big as A. rewrite (hgau_residual (5 / 48) 1); [cbn [repeat concat app]; repeat f_equal; lra|]. unfold bell_map. cbn [map].
  replace (8 * PI * (5 / 48) / 5) with (PI / 6) by field. replace (PI / 6 - PI / 3) with (- (PI / 6)) by field. replace (PI / 6 + PI / 3) with (PI / 2) by field. rewrite cos_neg, cos_PI2, cos_PI6. pose proof (sqrt_lt_R0 3 ltac:(lra)) as S3.
  assert (8 * bell_A ^ 2 * (1 + 0) < 8 * bell_A ^ 2 * (1 + sqrt 3 / 2)) by (apply Rmult_lt_compat_l; lra). rewrite norm3 by lra. f_equal. f_equal. f_equal. field. lra.
Qed.
Lemma hgau_flat : residual_true illum_gauss hundred (bowl_I ++ ramp_K 0) ramp_beam ramp_x ramp_y bowl_z (9 / 1000) 6 2 = Ok (concat (repeat [0; 1; 0] 3)).
Proof.
  pose proof bell_A_big as A. rewrite (hgau_residual 0 0); [cbn [repeat concat app]; repeat f_equal; lra|]. unfold bell_map. cbn [map].
  replace (8 * PI * 0 / 5) with 0 by field. rewrite cos_0. replace (0 - PI / 3) with (- (PI / 3)) by field. replace (0 + PI / 3) with (PI / 3) by field. rewrite cos_neg, cos_PI3. rewrite norm3 by lra. f_equal. f_equal. f_equal. field. lra.
Qed.
Lemma hgau_predictable t : 0 <= t <= 1 / 4 -> predictable_eff_gauss (/ 2 ^ 52) (/ 2 ^ 40) legs20 2 (9 / 1000) 6 ramp_x ramp_y bowl_z (/ 2 ^ 14) (bowl_I ++ ramp_K t).
Proof.
  intros Ht. pose proof bell_A_big as A. exists (PTel.CC legs20), (1 + PTel.dd legs20), 1%nat, 2, (-12), 2, 0, 0, (ramp_K t), (/ 2 ^ 34 + / 2 ^ 40), (4 * bell_A ^ 2). split; [reflexivity|].
  split; [intros z Hz; split; [exact (hgau_reach t z Ht Hz)|pose proof (bell_loss t z Ht Hz); lra]|]. split; [lra|].
  split. { intros i Hi. do 3 eexists. split; [exact (hgau_row t i Hi)|]. split; [right; right; left; reflexivity|]. split; [left; reflexivity|]. pose proof (ramp_slope t Ht). nra. }
  rewrite hgau_lit. replace (INR 6) with 6 by (rewrite INR_IZR_INZ; reflexivity). pose proof bell_peak as B. set (o := gauss_peak 2 (-12)) in *. assert (O2 : 0 <= (o * 4) ^ 2 <= 64) by nra.
  assert (L : 5 * (/ 2 ^ 34 + / 2 ^ 40) + 6 ^ 2 * / 2 ^ 46 <= 6 * / 2 ^ 34) by lra. assert (L0 : 0 <= 5 * (/ 2 ^ 34 + / 2 ^ 40) + 6 ^ 2 * / 2 ^ 46) by lra. set (l := 5 * _ + _) in *.
  assert (X : l * (o * 4) ^ 2 <= 6 * / 2 ^ 34 * 64) by (apply Rmult_le_compat; lra). assert (Y : 4 * (l * (o * 4) ^ 2) / (4 * bell_A ^ 2) <= 6 * / 2 ^ 34 * 64 / (/ 800)).
  { replace (4 * (l * (o * 4) ^ 2) / (4 * bell_A ^ 2)) with (l * (o * 4) ^ 2 * / bell_A ^ 2) by (field; intros Z; rewrite Z in A; lra). unfold Rdiv. apply Rmult_le_compat; [apply Rmult_le_pos; lra|left; apply Rinv_0_lt_compat; lra|exact X|apply Rinv_le_contravar; lra]. }
  eapply Rle_trans; [apply Rplus_le_compat_r, Y|]. unfold unit_roundoff. lra.
Qed.
Definition hgau_args : fit_args := {|
  fa_name := "gauss"; fa_pthto := ["w"]; fa_object := "test001"; fa_date := "now"; fa_freq := 32; fa_wavel := 9 / 1000; fa_d_z := bowl_z; fa_meanel := 0;
  fa_beam := ramp_beam; fa_u := ramp_x; fa_v := ramp_y; fa_order_max := 1;
  fa_illum := illum_gauss; fa_illum_name := "gauss"; fa_tel := hundred; fa_opd_name := "effelsberg"; fa_tel_name := "effelsberg";
  fa_resolution := 6; fa_box_factor := 2; fa_fit_previous := true; fa_config_file := Some ["w"; "notes.csv"]; fa_make_plots := true; fa_work_dir := None |}.
