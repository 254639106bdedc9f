(** A telescope and three maps for the rounding errors of the residual: a box of twice the dish sampled at 6 by 6 points. *)
From Coq Require Import Reals List Lra Lia ZArith.
From Verif Require Import PyBase PyLib Sums Num MZernike SZernike MMath MAperture MTel MRad MCore SMath SCore STel SFloat MFloat MFloat2 MFloat3 MFloat4 MFloat5 SRad SGain SRound SRound2 SRound3 SRound4 POrder64 PRound PRound2 PRound4 PRound5 PRound9 PRound10 PRad PAper PIllum PTel PGain2 PFar PResid PSim PRound14 PRound15 PRound16.
From Coquelicot Require Import Complex.
Import ListNotations.
Open Scope R_scope.
Open Scope list_scope.

Definition bowl_K : list R := [0; 0; 0; 0; 1 / 5; 0].
Definition bowl_I : list R := [2; -12; 2; 0; 0].
Definition bowl : telgeo := manual 50 3 1 20 30 300.
Definition bowl_z : list R := [22 / 1000; 0; - (22 / 1000)].
Definition bowl_step : R := grid_step 50 (9 / 1000) 6 2.
Definition bowl_x : list (list R) := [[0; bowl_step]; [0; bowl_step]; [0; bowl_step]].
Definition bowl_y : list (list R) := [[0; 0]; [0; 0]; [0; 0]].
Definition bowl_beam : list (list num) := [[Fin 5; Fin 1]; [Fin 3; NaN]; [Fin 2; Fin 2]].

Lemma bowl_sample i : sample (50 * 2) 6 i = 20 * IZR (2 * Z.of_nat i - 5).
Proof. unfold sample. rewrite (INR_IZR_INZ i). replace (INR 6) with 6 by (rewrite INR_IZR_INZ; reflexivity). rewrite minus_IZR, mult_IZR. field. Qed.
Lemma bowl_cases i : (i < 6)%nat -> let x := sample (50 * 2) 6 i in ((i = 2 \/ i = 3)%nat /\ x ^ 2 = 20 ^ 2 /\ Rabs x = 20) \/ (~ (i = 2 \/ i = 3)%nat /\ (x ^ 2 = 60 ^ 2 /\ Rabs x = 60 \/ x ^ 2 = 100 ^ 2 /\ Rabs x = 100)).
Proof.
  intros Hi. cbv zeta. rewrite bowl_sample. destruct i as [|[|[|[|[|[|]]]]]]; [| | | | | |lia]; match goal with |- context [20 * IZR ?k] => let v := eval compute in k in change k with v end.
  all: [> right|right|left|left|right|right].
  all: split; [lia|].
  - right. split; [lra|rewrite Rabs_left; lra].
  - left. split; [lra|rewrite Rabs_left; lra].
  - split; [lra|rewrite Rabs_left; lra].
  - split; [lra|rewrite Rabs_pos_eq; lra].
  - left. split; [lra|rewrite Rabs_pos_eq; lra].
  - right. split; [lra|rewrite Rabs_pos_eq; lra].
Qed.
Lemma bowl_block i j : (i < 6)%nat -> (j < 6)%nat -> block_manual 50 3 1 20 (sample (50 * 2) 6 i) (sample (50 * 2) 6 j) = if (((i =? 2) || (i =? 3)) && ((j =? 2) || (j =? 3)))%nat%bool then 1 else 0.
Proof.
  intros Hi Hj. pose proof (bowl_cases i Hi) as Ci. pose proof (bowl_cases j Hj) as Cj. cbv zeta in Ci, Cj. set (x := sample (50 * 2) 6 i) in *. set (y := sample (50 * 2) 6 j) in *.
  destruct Ci as [(I1 & X1 & X2)|(I1 & X1)]; destruct Cj as [(J1 & Y1 & Y2)|(J1 & Y1)].
  - replace ((((i =? 2) || (i =? 3)) && ((j =? 2) || (j =? 3)))%nat%bool) with true by (destruct I1 as [-> | ->]; destruct J1 as [-> | ->]; reflexivity).
    apply block_manual_iff. unfold annulus, legs. rewrite X1, Y1. split; [lra|]. rewrite X2, Y2. lra.
  - replace ((((i =? 2) || (i =? 3)) && ((j =? 2) || (j =? 3)))%nat%bool) with false by (symmetry; apply Bool.andb_false_iff; right; apply Bool.orb_false_iff; split; apply Nat.eqb_neq; lia). apply block_outside. destruct Y1 as [[Y1 _]|[Y1 _]]; lra.
  - replace ((((i =? 2) || (i =? 3)) && ((j =? 2) || (j =? 3)))%nat%bool) with false by (symmetry; apply Bool.andb_false_iff; left; apply Bool.orb_false_iff; split; apply Nat.eqb_neq; lia). apply block_outside. destruct X1 as [[X1 _]|[X1 _]]; lra.
  - replace ((((i =? 2) || (i =? 3)) && ((j =? 2) || (j =? 3)))%nat%bool) with false by (symmetry; apply Bool.andb_false_iff; left; apply Bool.orb_false_iff; split; apply Nat.eqb_neq; lia). apply block_outside. pose proof (pow2_ge_0 y). destruct X1 as [[X1 _]|[X1 _]]; lra.
Qed.

Lemma bowl_turns z : In z bowl_z -> 0 <= turns bowl_K z (9 / 1000) <= 12.
Proof.
  intros Hz. assert (Z : 0 <= Rabs z <= 22 / 1000). { split; [apply Rabs_pos|]. destruct Hz as [<-|[<-|[<-|[]]]]; apply Rabs_le; lra. }
  unfold turns. replace (total_abs bowl_K) with (1 / 5). 2:{ cbn [total_abs bowl_K fold_right]. rewrite Rabs_R0, (Rabs_pos_eq (1 / 5)) by lra. lra. } replace (INR (length bowl_K)) with 6 by (rewrite INR_IZR_INZ; reflexivity). pose proof tiny_1. pose proof tiny_pos. lra.
Qed.
Lemma bowl_loss z : In z bowl_z -> field_loss 2 2 2 (turns bowl_K z (9 / 1000)) * / 2 ^ 52 <= / 2 ^ 30.
Proof.
  intros Hz. pose proof (bowl_turns z Hz) as T. set (t := turns bowl_K z (9 / 1000)) in *. pose proof PI_4. pose proof PI_RGT_0. unfold field_loss, loss. replace (INR 2) with 2 by (rewrite INR_IZR_INZ; reflexivity). assert (PI * t <= 4 * 12) by (apply Rmult_le_compat; lra).
  assert (2 * (130 * 2 + 20 * (2 * (2 + 6) * (5 / 2) ^ 2) * (1 + 2 * PI * t)) <= 2 ^ 22) by lra. assert (P : 0 < / 2 ^ 52) by (apply Rinv_0_lt_compat, pow_lt; lra). apply Rle_trans with (2 ^ 22 * / 2 ^ 52); [apply Rmult_le_compat_r; lra|lra].
Qed.
Lemma bowl_reach z : In z bowl_z -> within_reach (/ 2 ^ 52) 2 bowl_K 50 3 1 20 30 300 2 (9 / 1000) z 2 (-12) 2 0 0 6.
Proof.
  intros Hz. assert (P : 0 < / 2 ^ 52) by (apply Rinv_0_lt_compat, pow_lt; lra). assert (P100 : / 2 ^ 100 <= / 1000). { apply Rinv_le_contravar; [lra|]. apply Rle_trans with (2 ^ 10); [lra|apply Rle_pow; [lra|lia]]. } assert (Q100 : 1000 <= 2 ^ 100) by (apply Rle_trans with (2 ^ 10); [lra|apply Rle_pow; [lra|lia]]).
  assert (E100 : 100 * / 2 ^ 52 * (50 * 2) ^ 2 <= / 1000) by lra.
  split; [reflexivity|]. split; [reflexivity|]. split.
  { unfold dimensions. assert (INR 6 = 6) as -> by (rewrite INR_IZR_INZ; reflexivity). assert (Z : z = 0 \/ / 2 ^ 100 <= Rabs z). { destruct Hz as [<-|[<-|[<-|[]]]]; [right; rewrite Rabs_pos_eq; lra|left; reflexivity|right; rewrite Rabs_Ropp, Rabs_pos_eq; lra]. } repeat match goal with |- _ /\ _ => split end; try lra; try lia; try exact Z. }
  split.
  { intros i j Hi Hj. cbv zeta. change (50 * 2) with (50 * 2). pose proof (bowl_cases i Hi) as Ci. pose proof (bowl_cases j Hj) as Cj. pose proof (bowl_block i j Hi Hj) as Bk. cbv zeta in Ci, Cj. set (x := sample (50 * 2) 6 i) in *. set (y := sample (50 * 2) 6 j) in *. split.
    - assert (Sx : x ^ 2 = 20 ^ 2 /\ Rabs x = 20 \/ x ^ 2 = 60 ^ 2 /\ Rabs x = 60 \/ x ^ 2 = 100 ^ 2 /\ Rabs x = 100) by tauto. assert (Sy : y ^ 2 = 20 ^ 2 /\ Rabs y = 20 \/ y ^ 2 = 60 ^ 2 /\ Rabs y = 60 \/ y ^ 2 = 100 ^ 2 /\ Rabs y = 100) by tauto. clear Ci Cj Bk.
      split; [|split].
      + destruct Sx as [[X1 _]|[[X1 _]|[X1 _]]]; destruct Sy as [[Y1 _]|[[Y1 _]|[Y1 _]]]; rewrite X1, Y1; first [rewrite Rabs_left by lra; lra|rewrite Rabs_pos_eq by lra; lra].
      + destruct Sx as [[X1 _]|[[X1 _]|[X1 _]]]; destruct Sy as [[Y1 _]|[[Y1 _]|[Y1 _]]]; rewrite X1, Y1; rewrite Rabs_pos_eq by lra; lra.
      + intros w edge Hw He. assert (Wx : Rabs w = 20 \/ Rabs w = 60 \/ Rabs w = 100) by (destruct Hw as [-> | ->]; tauto). destruct He as [-> | ->]; destruct Wx as [-> |[-> | ->]]; first [rewrite Rabs_left by lra; lra|rewrite Rabs_pos_eq by lra; lra].
    - intros Ho. rewrite !Rminus_0_r. destruct Ci as [(I1 & X1 & _)|(I1 & X1)]; destruct Cj as [(J1 & Y1 & _)|(J1 & Y1)]; [rewrite X1, Y1; lra| | |]; exfalso; apply Ho; apply block_outside; pose proof (pow2_ge_0 x); pose proof (pow2_ge_0 y).
      + destruct Y1 as [[Y1 _]|[Y1 _]]; lra.
      + destruct X1 as [[X1 _]|[X1 _]]; lra.
      + destruct X1 as [[X1 _]|[X1 _]]; lra. }
  split; [rewrite Rabs_pos_eq; lra|]. split; [lra|]. split; [lra|]. eapply Rle_trans; [exact (bowl_loss z Hz)|]. apply Rinv_le_contravar; [lra|]. apply Rle_trans with (2 ^ 10); [lra|apply Rle_pow; [lra|lia]].
Qed.

(** ** Its field and its power pattern *)
Lemma bowl_radial rho : exists c, forall theta, zernike_series 2 (coeff_of bowl_K) rho theta = c.
Proof.
  exists (1 / 5 * radial 2 0 rho). intros theta. unfold zernike_series, coeff_of. cbn [sum_upto]. cbv zeta.
  repeat match goal with |- context [coeff_pos ?a ?b] => let v := eval compute in (coeff_pos a b) in change (coeff_pos a b) with v end. cbn [nth bowl_K]. unfold circle.
  change (2 * Z.of_nat 1 - Z.of_nat 2)%Z with 0%Z. cbn [Z.abs Z.ltb Z.compare Z.to_nat]. rewrite (Rmult_0_l theta), cos_0. ring.
Qed.
Definition bowl_A : R := par_value 2 (-12) 2 50 800.
Lemma bowl_A_pos : 0 < bowl_A.
Proof.
  pose proof (par_decreasing 2 (-12) 2 50 800 900 ltac:(lra) ltac:(lra) ltac:(lra) ltac:(lra) ltac:(lra) ltac:(lra)) as [[A B] _]. unfold bowl_A. pose proof (c_dB_pos (-12)). lra.
Qed.
Lemma bowl_aperture z : exists E c0, aperture illum_parabolic bowl bowl_I bowl_K z (9 / 1000) = Ok E /\
  forall i j, (i < 6)%nat -> (j < 6)%nat -> E (sample (50 * 2) 6 i) (sample (50 * 2) 6 j) = if (((i =? 2) || (i =? 3)) && ((j =? 2) || (j =? 3)))%nat%bool then Cmult (RtoC bowl_A) (cis c0) else RtoC 0.
Proof.
  destruct (proj1 (par_arity bowl_I 50) eq_refl) as [Ea EI]. destruct (aperture_ok illum_parabolic bowl bowl_I bowl_K z (9 / 1000) 2 Ea eq_refl EI) as (E & HE & HV). destruct (bowl_radial (sqrt 800 / 50)) as [c Hc].
  exists E, (2 * PI * (c + z * ((1 - (sqrt 800 / (2 * 30)) ^ 2) / (1 + (sqrt 800 / (2 * 30)) ^ 2) + (1 - (sqrt 800 / (2 * 300)) ^ 2) / (1 + (sqrt 800 / (2 * 300)) ^ 2)) / (9 / 1000))). split; [exact HE|]. intros i j Hi Hj. rewrite HV. cbn [bowl manual block_dist opd_func tel_pr]. rewrite (bowl_block i j Hi Hj).
  destruct ((((i =? 2) || (i =? 3)) && ((j =? 2) || (j =? 3)))%nat%bool) eqn:Bk.
  - apply Bool.andb_true_iff in Bk as [B1 B2]. apply Bool.orb_true_iff in B1. apply Bool.orb_true_iff in B2. rewrite !Nat.eqb_eq in B1, B2.
    pose proof (bowl_cases i Hi) as Ci. pose proof (bowl_cases j Hj) as Cj. cbv zeta in Ci, Cj. set (x := sample (50 * 2) 6 i) in *. set (y := sample (50 * 2) 6 j) in *. destruct Ci as [(_ & X1 & _)|(I1 & _)]; [|contradiction]. destruct Cj as [(_ & Y1 & _)|(J1 & _)]; [|contradiction].
    assert (S8 : x ^ 2 + y ^ 2 = 800) by lra. unfold opd_manual. cbv zeta. rewrite S8, Hc. f_equal. f_equal. rewrite Rmult_1_l. rewrite (par_inside 2 (-12) 2 0 0 50 Ea x y ltac:(lra) EI); rewrite !Rminus_0_r, S8; [reflexivity|lra].
  - rewrite Rmult_0_l. apply Cmult_0_l.
Qed.
Lemma bowl_power E c0 : (forall i j, (i < 6)%nat -> (j < 6)%nat -> E (sample (50 * 2) 6 i) (sample (50 * 2) 6 j) = if (((i =? 2) || (i =? 3)) && ((j =? 2) || (j =? 3)))%nat%bool then Cmult (RtoC bowl_A) (cis c0) else RtoC 0) ->
  Cmod (centred E (50 * 2) 6 0 0) ^ 2 = 16 * bowl_A ^ 2 /\ Cmod (centred E (50 * 2) 6 0 1) ^ 2 = 12 * bowl_A ^ 2.
Proof.
  intros H. assert (Q : forall z, Cmod z ^ 2 = fst z ^ 2 + snd z ^ 2) by (intros z; unfold Cmod; rewrite pow2_sqrt by nra; ring).
  assert (G : forall p, centred E (50 * 2) 6 0 p = Cmult (Cmult (RtoC (2 * bowl_A)) (cis c0)) (Cplus (cis (- (2 * PI * (IZR p * 2 / 6)))) (cis (- (2 * PI * (IZR p * 3 / 6)))))).
  { intros p. unfold centred. cbn [Csum]. rewrite !gx_sample by lia. rewrite !H by lia. cbn [Nat.eqb orb andb]. rewrite !Cmult_0_l, !Cplus_0_l, !Cplus_0_r. cbn [INR].
    replace (- (2 * PI * ((0 * (1 + 1) + IZR p * (1 + 1)) / (1 + 1 + 1 + 1 + 1 + 1)))) with (- (2 * PI * (IZR p * 2 / 6))) by field. replace (- (2 * PI * ((0 * (1 + 1) + IZR p * (1 + 1 + 1)) / (1 + 1 + 1 + 1 + 1 + 1)))) with (- (2 * PI * (IZR p * 3 / 6))) by field.
    replace (- (2 * PI * ((0 * (1 + 1 + 1) + IZR p * (1 + 1)) / (1 + 1 + 1 + 1 + 1 + 1)))) with (- (2 * PI * (IZR p * 2 / 6))) by field. replace (- (2 * PI * ((0 * (1 + 1 + 1) + IZR p * (1 + 1 + 1)) / (1 + 1 + 1 + 1 + 1 + 1)))) with (- (2 * PI * (IZR p * 3 / 6))) by field.
    rewrite RtoC_mult. set (w2 := cis (- (2 * PI * (IZR p * 2 / 6)))). set (w3 := cis (- (2 * PI * (IZR p * 3 / 6)))). replace (RtoC 2) with (Cplus (RtoC 1) (RtoC 1)) by (rewrite <- RtoC_plus; f_equal; ring). ring. }
  pose proof (sin2_cos2 c0) as N. unfold Rsqr in N. split; rewrite G, Q; unfold cis, Cplus, Cmult, RtoC; cbn [fst snd].
  - replace (- (2 * PI * (0 * 2 / 6))) with 0 by field. replace (- (2 * PI * (0 * 3 / 6))) with 0 by field. rewrite cos_0, sin_0. transitivity (16 * bowl_A ^ 2 * (sin c0 * sin c0 + cos c0 * cos c0)); [ring|rewrite N; ring].
  - replace (- (2 * PI * (1 * 2 / 6))) with (- (2 * (PI / 3))) by field. replace (- (2 * PI * (1 * 3 / 6))) with (- PI) by field. rewrite !cos_neg, !sin_neg, cos_PI, sin_PI, cos_2PI3, sin_2PI3. pose proof (sqrt_sqrt 3 ltac:(lra)) as S3.
    transitivity (bowl_A ^ 2 * (9 + sqrt 3 * sqrt 3) * (sin c0 * sin c0 + cos c0 * cos c0)); [field|rewrite N, S3; ring].
Qed.
Lemma bowl_row i : (i < 3)%nat -> model_row illum_parabolic bowl (bowl_I ++ bowl_K) bowl_x bowl_y bowl_z (9 / 1000) 6 2 i = Ok [16 * bowl_A ^ 2; 12 * bowl_A ^ 2].
Proof.
  intros Hi. assert (exists z, nth_error bowl_z i = Some z /\ nth_error bowl_x i = Some [0; bowl_step] /\ nth_error bowl_y i = Some [0; 0]) as (z & Ez & Ex & Ey) by (destruct i as [|[|[|]]]; [| | |lia]; eexists; repeat split; reflexivity).
  destruct (bowl_aperture z) as (E & c0 & HE & HV). destruct (bowl_power E c0 HV) as [P0 P1].
  assert (R : exists uvF, radiation_pattern illum_parabolic bowl bowl_I bowl_K z (9 / 1000) 6 2 = Ok uvF). { rewrite rad_unfold by lia. cbv zeta. rewrite HE. cbn [bind]. eexists. reflexivity. } destruct R as [[[ua va] F] R].
  destruct (axes_api illum_parabolic bowl bowl_I bowl_K z (9 / 1000) 6 2 ua va F ltac:(lra) ltac:(cbn; lra) ltac:(lra) R) as (Q & Lu & LF & LR & _ & A). cbv zeta in A. destruct A as (Hs & An & _ & Inc). subst va. cbn [tel_pr bowl manual] in An, Hs. fold (grid_step 50 (9 / 1000) 6 2) in An, Hs. fold bowl_step in An, Hs.
  destruct (rad_inv _ _ _ _ _ _ _ _ _ _ _ R) as (_ & E' & HE' & EF & _ & _). rewrite HE in HE'. apply Ok_inj in HE'. subst E'. cbn [tel_pr bowl manual] in EF.
  unfold model_row, py_get. rewrite Ez, Ex, Ey. cbn [bind]. change (firstn 5 (bowl_I ++ bowl_K)) with bowl_I. change (skipn 5 (bowl_I ++ bowl_K)) with bowl_K. rewrite R. cbn [bind]. unfold interp_points. cbn [length Nat.eqb forallb].
  assert (U3 : nth 3 ua 0 = 0) by (rewrite An by lia; change (6 / 2)%nat with 3%nat; ring). assert (U4 : nth 4 ua 0 = bowl_step) by (rewrite An by lia; change (6 / 2)%nat with 3%nat; cbn [INR]; ring).
  assert (IB : forall k, (k < 6)%nat -> in_bounds ua (nth k ua 0) = true). { intros k Hk. unfold in_bounds. rewrite Lu. apply Bool.andb_true_iff. split; apply Rleb_true. 
    - destruct (Nat.eq_dec k 0) as [Z|]; [rewrite Z; apply Rle_refl|left; apply Inc; lia].
    - destruct (Nat.eq_dec k 5) as [Z|]; [rewrite Z; apply Rle_refl|left; apply Inc; cbn; lia]. }
  pose proof (IB 3%nat ltac:(lia)) as I3. pose proof (IB 4%nat ltac:(lia)) as I4. rewrite U3 in I3. rewrite U4 in I4. rewrite I3, I4. cbn [andb map2].
  assert (Ic : increasing ua) by (intros a b Hab; apply Inc; lia).
  assert (W : forall k, (k < 6)%nat -> interp2 ua ua (power_pattern F) (nth k ua 0) 0 = Cmod (centred E (50 * 2) 6 0 (Z.of_nat k - 3)) ^ 2).
  { intros k Hk. replace (interp2 ua ua (power_pattern F) (nth k ua 0) 0) with (interp2 ua ua (power_pattern F) (nth k ua 0) (nth 3 ua 0)) by (rewrite U3; reflexivity). rewrite (interp_node ua ua (power_pattern F) k 3 Ic Ic) by lia. rewrite (power_at F 3 k 6 LF LR) by lia. rewrite EF, rad_sample by lia. change (6 / 2)%nat with 3%nat. reflexivity. }
  pose proof (W 3%nat ltac:(lia)) as W3. pose proof (W 4%nat ltac:(lia)) as W4. rewrite U3 in W3. rewrite U4 in W4. change (Z.of_nat 3 - 3)%Z with 0%Z in W3. change (Z.of_nat 4 - 3)%Z with 1%Z in W4. rewrite W3, W4, P0, P1. reflexivity.
Qed.
Lemma bowl_contrast i : (i < 3)%nat -> exists row s t, model_row illum_parabolic bowl (bowl_I ++ bowl_K) bowl_x bowl_y bowl_z (9 / 1000) 6 2 i = Ok row /\ In s row /\ In t row /\ 4 * bowl_A ^ 2 <= t - s.
Proof. intros Hi. do 3 eexists. split; [exact (bowl_row i Hi)|]. split; [right; left; reflexivity|]. split; [left; reflexivity|]. lra. Qed.
Lemma bowl_inside x : In x (concat bowl_x ++ concat bowl_y) -> well_inside bowl_step 6 x.
Proof.
  assert (B : 0 < bowl_step). { unfold bowl_step, grid_step. replace (INR 6) with 6 by (rewrite INR_IZR_INZ; reflexivity). lra. }
  intros H. unfold well_inside. change (6 - 1)%nat with 5%nat. change (6 / 2)%nat with 3%nat. replace (INR 6) with 6 by (rewrite INR_IZR_INZ; reflexivity). replace (INR 5 - INR 3) with 2 by (cbn [INR]; lra). assert (6 * / 2 ^ 49 <= / 4) by lra.
  assert (X : x = 0 \/ x = bowl_step) by (cbn in H; intuition congruence). assert (bowl_step * (1 - 6 * / 2 ^ 49) >= bowl_step * (3 / 4)) by (apply Rmult_ge_compat_l; lra). destruct X as [-> | ->]; rewrite Rabs_pos_eq by lra; lra.
Qed.
Lemma bowl_resolved b : In b bowl_beam -> resolved b.
Proof.
  pose proof tiny_1 as T1. intros [<-|[<-|[<-|[]]]] x y Hx Hy; cbn in Hx, Hy.
  - destruct Hx as [Hx|[Hx|[]]], Hy as [Hy|[Hy|[]]]; injection Hx as <-; injection Hy as <-; try (left; reflexivity); right; [rewrite Rabs_pos_eq; lra|rewrite Rabs_left; lra].
  - destruct Hx as [Hx|[Hx|[]]]; [|discriminate]. destruct Hy as [Hy|[Hy|[]]]; [|discriminate]. injection Hx as <-. injection Hy as <-. left. reflexivity.
  - left. destruct Hx as [Hx|[Hx|[]]], Hy as [Hy|[Hy|[]]]; injection Hx as <-; injection Hy as <-; reflexivity.
Qed.
Lemma bowl_open : block_manual 50 3 1 20 (sample (50 * 2) 6 2) (sample (50 * 2) 6 3) <> 0.
Proof. rewrite bowl_block by lia. cbn. lra. Qed.
