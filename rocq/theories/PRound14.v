(** Rounding errors of the radiation pattern: a concrete telescope. *)
From Coq Require Import Reals ZArith List Lia Lra Bool.
From Verif Require Import PyBase PyLib Sums Num MMath MAperture MTel MRad SFloat MFloat MFloat2 MFloat3 MFloat4 SRad SGain SRound SRound2 SRound3 PPolar PGain PGain2 PRad PRound PRound2 PRound4 PRound5 PRound6 PRound9 PFft PRound11 PRound13 PSim.
From Coquelicot Require Import Complex.
Import ListNotations.
Open Scope R_scope.

Lemma block_nonneg pr sr a L x y : 0 <= block_manual pr sr a L x y.
Proof. destruct (block_01 pr sr a L x y) as [->|[-> _]]; lra. Qed.
Lemma Rsum_ge n f i : (forall j, 0 <= f j) -> (i < n)%nat -> f i <= Rsum n f.
Proof.
  induction n; intros P H; [lia|]. cbn [Rsum]. destruct (Nat.eq_dec i n) as [->|Ne].
  - assert (0 <= Rsum n f) by (apply Rsum_nonneg; intros; apply P). lra.
  - specialize (IHn P ltac:(lia)). pose proof (P n). lra.
Qed.
Lemma open_sum pr sr a L B N i j : (i < N)%nat -> (j < N)%nat -> block_manual pr sr a L (sample B N i) (sample B N j) <> 0 -> 1 <= over_samples B N (block_manual pr sr a L).
Proof.
  intros Hi Hj H. destruct (block_01 pr sr a L (sample B N i) (sample B N j)) as [Z|[Z _]]; [contradiction|]. unfold over_samples.
  eapply Rle_trans; [|apply (Rsum_ge N (fun j => Rsum N (fun i => block_manual pr sr a L (sample B N i) (sample B N j))) j); [|exact Hj]].
  - eapply Rle_trans; [|apply (Rsum_ge N (fun i => block_manual pr sr a L (sample B N i) (sample B N j)) i); [intros; apply block_nonneg|exact Hi]]. cbv beta. lra.
  - intros k. apply Rsum_nonneg. intros. apply block_nonneg.
Qed.

Section Api.
Variables (e ef : R) (m : maths) (n : nat) (K : list R) (pr sr a L Fp F bf wavel d_z i_amp c_dB q x0 y0 : R) (N : nat).
Hypothesis Ue : u <= e.
Hypothesis Hm : accurate_maths e m.
Hypothesis Hw : within_reach e n K pr sr a L Fp F bf wavel d_z i_amp c_dB q x0 y0 N.
Let fe := field_loss n bf q (turns K d_z wavel) * e.
Let Ic := [i_amp; c_dB; q; x0; y0].
Let B := pr * bf.
Let x64 (i : nat) := linspace64 (- fl B) (fl B) N i.

Lemma field_api : exists E E64, aperture illum_parabolic (manual pr sr a L Fp F) Ic K d_z wavel = Ok E /\ aperture64 m (illum_parabolic64 m) (manual64 pr sr a L Fp F) Ic K d_z wavel = Ok E64 /\
  forall i j, (i < N)%nat -> (j < N)%nat -> Cmod (Cminus (E64 (x64 i) (x64 j)) (E (sample B N i) (sample B N j))) <= 2 * fe * Rabs i_amp * block_manual pr sr a L (sample B N i) (sample B N j).
Proof.
  destruct Hw as (A1 & A2 & A3 & A4 & A5 & A6 & A7 & A8). destruct (pixel_field e m n K pr sr a L Fp F bf wavel d_z i_amp c_dB q x0 y0 N Ue Hm A1 A2 A3 A4 A5 A6 A7 A8) as (E & E64 & E1 & E2 & H). exists E, E64. split; [exact E1|]. split; [exact E2|]. intros i j Hi Hj. exact (proj1 (H i j Hi Hj)).
Qed.
Hypothesis Hfft : accurate_fft ef (m_fft m).
Hypothesis Hef : 0 <= ef <= / 1000.
Lemma pattern_api : exists ua va F0 ua64 va64 F64, radiation_pattern illum_parabolic (manual pr sr a L Fp F) Ic K d_z wavel N bf = Ok (ua, va, F0) /\ radiation_pattern64 m (illum_parabolic64 m) (manual64 pr sr a L Fp F) Ic K d_z wavel N bf = Ok (ua64, va64, F64) /\
  length ua64 = N /\ va64 = ua64 /\ length F64 = N /\ (forall i, (i < N)%nat -> Rabs (nth i ua64 0 - nth i ua 0) <= INR N * / 2 ^ 49 * Rabs (nth i ua 0)) /\
  forall j i, (j < N)%nat -> (i < N)%nat -> length (nth j F64 []) = N /\ Cmod (Cminus (at2 F64 j i) (at2 F0 j i)) <= 2 * (fe + ef) * (Rabs i_amp * over_samples B N (block_manual pr sr a L)).
Proof.
  destruct Hw as (A1 & A2 & A3 & A4 & A5 & A6 & A7 & A8). destruct (pattern_err e ef m n K pr sr a L Fp F bf wavel d_z i_amp c_dB q x0 y0 N Ue Hm A1 A2 A3 A4 A5 A6 A7 A8 Hfft Hef) as (ua & va & F0 & ua64 & va64 & F64 & E1 & E2 & Hu & Hv & R0 & R64 & H).
  exists ua, va, F0, ua64, va64, F64. split; [exact E1|]. split; [exact E2|]. split; [rewrite Hu, map_length, seq_length; reflexivity|]. split; [exact Hv|]. split; [apply R64|]. split.
  - intros i Hi. rewrite Hu. rewrite nth_indep with (d' := u_axis64 pr bf wavel N O) by (rewrite map_length, seq_length; exact Hi). rewrite map_nth, seq_nth by exact Hi. cbn [Nat.add]. destruct A3 as (D1 & D2 & D3 & D4 & _ & _ & _ & _ & _ & _ & _ & D5).
    apply (u_axis_err illum_parabolic (manual pr sr a L Fp F) Ic K d_z wavel N bf ua va F0); [cbn [manual tel_pr]; split; [nra|exact D3]|exact D5|exact D4|exact E1|exact Hi].
  - intros j i Hj Hi. split; [destruct R64 as [RL RR]; apply RR, nth_In; rewrite RL; exact Hj|]. exact (proj1 (H j i Hj Hi)).
Qed.
Lemma power_api : (exists i j, (i < N)%nat /\ (j < N)%nat /\ block_manual pr sr a L (sample B N i) (sample B N j) <> 0) ->
  exists ua va F0 ua64 va64 F64, radiation_pattern illum_parabolic (manual pr sr a L Fp F) Ic K d_z wavel N bf = Ok (ua, va, F0) /\ radiation_pattern64 m (illum_parabolic64 m) (manual64 pr sr a L Fp F) Ic K d_z wavel N bf = Ok (ua64, va64, F64) /\
  let top := (Rabs i_amp * over_samples B N (block_manual pr sr a L)) ^ 2 in
  forall j i, (j < N)%nat -> (i < N)%nat -> Rabs (nth i (nth j (power_pattern64 m F64) []) 0 - nth i (nth j (power_pattern F0) []) 0) <= 5 * (fe + ef) * top /\ 0 <= nth i (nth j (power_pattern F0) []) 0 <= top.
Proof.
  intros (i0 & j0 & Hi0 & Hj0 & Ho). destruct Hw as (A1 & A2 & A3 & A4 & A5 & A6 & A7 & A8). exact (power_err e ef m n K pr sr a L Fp F bf wavel d_z i_amp c_dB q x0 y0 N Ue Hm A1 A2 A3 A4 A5 A6 A7 A8 Hfft Hef (open_sum pr sr a L B N i0 j0 Hi0 Hj0 Ho)).
Qed.
End Api.

(** ** A concrete telescope: the dish of 50 m on a box of 5 times its size, 256 points *)
Definition rounding_maths : maths :=
  {| m_lm := correct_libm; m_atan2 := arctan2; m_pow := npow; m_pow10 := fun x => fl (Rpower 10 x); m_abs := fun z => fl (Cmod z); m_fft := fft2 |}.
Lemma u_52 : u <= / 2 ^ 52.
Proof. unfold unit_roundoff. apply Rinv_le_contravar; [apply pow_lt; lra|apply Rle_pow; [lra|lia]]. Qed.
Lemma rounding_accurate : accurate_maths (/ 2 ^ 52) rounding_maths.
Proof.
  assert (P : 0 < / 2 ^ 52) by (apply Rinv_0_lt_compat, pow_lt; lra). pose proof tiny_pos as Tp. pose proof tiny_1 as T1. split; [exact correct_accurate|]. split. { intros y x. pose proof (arctan2_range x y). split; [apply Rabs_le; cbn [rounding_maths m_atan2]; lra|]. exists 0%Z. cbn [rounding_maths m_atan2]. replace (arctan2 y x - arctan2 y x - 2 * PI * 0) with 0 by ring. rewrite Rabs_R0. lra. }
  split. { intros b q Hb Hq. destruct (npow_unit b q Hb Hq) as (p & Ep & _). exists p, p. cbn [rounding_maths m_pow]. split; [exact Ep|]. split; [exact Ep|]. replace (p - p) with 0 by ring. rewrite Rabs_R0. lra. }
  split.
  - intros x Hx. cbn [rounding_maths m_pow10]. unfold u in *.
    assert (0 < Rpower 10 x <= 1). { split; [apply exp_pos|]. unfold Rpower. apply exp_le1. assert (0 < ln 10) by (rewrite <- ln_1; apply ln_increasing; lra). nra. }
    assert (U53 : unit_roundoff = / 2 ^ 53) by reflexivity. assert (H53 : / 2 ^ 53 = / 2 ^ 52 / 2) by (replace (2 ^ 53) with (2 ^ 52 * 2) by ring; rewrite Rinv_mult; reflexivity).
    pose proof (fl_err unit_roundoff (Rpower 10 x) (Rle_refl _)) as Q. rewrite (Rabs_pos_eq (Rpower 10 x)) in Q by lra. eapply Rle_trans; [exact Q|]. rewrite U53, H53. assert (/ 2 ^ 52 / 2 * (Rpower 10 x + tiny / 100) <= / 2 ^ 52 / 2 * 2) by (apply Rmult_le_compat_l; lra). lra.
  - intros z. cbn [rounding_maths m_abs]. pose proof (fl_err (/ 2 ^ 52) (Cmod z) u_52) as Q. pose proof (Cmod_ge_0 z). rewrite (Rabs_pos_eq (Cmod z)) in Q by lra. eapply Rle_trans; [exact Q|]. apply Rmult_le_compat_l; lra.
Qed.
Lemma fft2_exact ef : 0 <= ef -> accurate_fft ef fft2.
Proof.
  intros He M N HL HR. assert (Rm : rectC N N M) by (split; assumption). destruct (le_lt_dec 1 N) as [N1|N1].
  - destruct (fft2_rect M N N Rm ltac:(lia)) as [F1 F2]. split; [exact F1|]. split; [exact F2|]. intros j i _ _. replace (Cminus (at2 (fft2 M) j i) (at2 (fft2 M) j i)) with (RtoC 0) by (unfold Cminus; ring). rewrite Cmod_0. apply Rmult_le_pos; [exact He|]. apply Rsum_nonneg. intros b _. apply Rsum_nonneg. intros c _. apply Cmod_ge_0.
  - assert (N0 : N = O) by lia. rewrite N0 in *. clear N0. destruct M as [|r0 M0]; [|discriminate HL]. split; [reflexivity|]. split; [intros r []|]. intros; lia.
Qed.

Lemma sample_odd i : (i < 256)%nat -> sample (50 * 5) 256 i = 250 / 255 * IZR (2 * Z.of_nat i - 255).
Proof. intros _. unfold sample. rewrite (INR_IZR_INZ i). replace (INR 256) with 256 by (rewrite INR_IZR_INZ; reflexivity). rewrite minus_IZR, mult_IZR. field. Qed.
Lemma IZR_gap (k c : Z) : (k <> c)%Z -> 1 <= Rabs (IZR k - IZR c).
Proof. intros H. rewrite <- minus_IZR, <- abs_IZR. apply IZR_le. lia. Qed.
Lemma odd_clear i j : (i < 256)%nat -> (j < 256)%nat -> let x := sample (50 * 5) 256 i in let y := sample (50 * 5) 256 j in
  / 2 ^ 10 <= Rabs (x ^ 2 + y ^ 2 - 50 ^ 2) /\ / 2 ^ 10 <= Rabs (x ^ 2 + y ^ 2 - 3 ^ 2) /\ forall z edge, z = x \/ z = y -> edge = 3 + 20 \/ edge = 1 -> / 2 ^ 10 <= Rabs (Rabs z - edge).
Proof.
  intros Hi Hj. cbv zeta. rewrite !sample_odd by assumption. set (k := (2 * Z.of_nat i - 255)%Z). set (l := (2 * Z.of_nat j - 255)%Z).
  assert (Ek : exists k', (k = 2 * k' + 1)%Z) by (exists (Z.of_nat i - 128)%Z; unfold k; lia). assert (El : exists l', (l = 2 * l' + 1)%Z) by (exists (Z.of_nat j - 128)%Z; unfold l; lia).
  assert (Hn : (k * k + l * l <> 2601)%Z). { destruct Ek as [k' ->], El as [l' ->]. nia. }
  assert (P : (250 / 255 * IZR k) ^ 2 + (250 / 255 * IZR l) ^ 2 = 62500 / 65025 * IZR (k * k + l * l)) by (rewrite plus_IZR, !mult_IZR; field). rewrite P.
  split. { pose proof (IZR_gap _ _ Hn) as G. replace (62500 / 65025 * IZR (k * k + l * l) - 50 ^ 2) with (62500 / 65025 * (IZR (k * k + l * l) - 2601)) by field. rewrite Rabs_mult, (Rabs_pos_eq (62500 / 65025)) by lra. lra. }
  split. { destruct (Z_le_gt_dec (k * k + l * l) 9) as [G|G]; [apply IZR_le in G; rewrite Rabs_left by lra; lra|]. assert (G' : (10 <= k * k + l * l)%Z) by lia. apply IZR_le in G'. rewrite Rabs_pos_eq by lra. lra. }
  assert (Z1 : forall t edge, edge = 3 + 20 \/ edge = 1 -> / 2 ^ 10 <= Rabs (Rabs (250 / 255 * IZR t) - edge)).
  { intros t edge He. rewrite Rabs_mult, (Rabs_pos_eq (250 / 255)) by lra. rewrite <- abs_IZR. destruct He as [-> | ->].
    - destruct (Z_le_gt_dec (Z.abs t) 23) as [G|G]; [apply IZR_le in G; rewrite Rabs_left by lra; lra|]. assert (G' : (24 <= Z.abs t)%Z) by lia. apply IZR_le in G'. rewrite Rabs_pos_eq by lra. lra.
    - destruct (Z_le_gt_dec (Z.abs t) 1) as [G|G]; [apply IZR_le in G; rewrite Rabs_left by lra; lra|]. assert (G' : (2 <= Z.abs t)%Z) by lia. apply IZR_le in G'. rewrite Rabs_pos_eq by lra. lra. }
  intros z edge [-> | ->] He; apply Z1; exact He.
Qed.
Definition dish_K : list R := [0; 1 / 10; -1 / 10; 2 / 10; 0; 1 / 10].
Lemma dish_reach : within_reach (/ 2 ^ 52) 2 dish_K 50 3 1 20 30 300 5 (9 / 1000) (22 / 1000) 2 (-12) 2 0 0 256.
Proof.
  assert (P : 0 < / 2 ^ 52) by (apply Rinv_0_lt_compat, pow_lt; lra). assert (P100 : / 2 ^ 100 <= / 1000). { apply Rinv_le_contravar; [lra|]. apply Rle_trans with (2 ^ 10); [lra|apply Rle_pow; [lra|lia]]. } assert (Q100 : 1000 <= 2 ^ 100) by (apply Rle_trans with (2 ^ 10); [lra|apply Rle_pow; [lra|lia]]).
  assert (E100 : 100 * / 2 ^ 52 * (50 * 5) ^ 2 <= / 2 ^ 20). { replace (2 ^ 52) with (2 ^ 32 * 2 ^ 20) by ring. rewrite Rinv_mult. assert (0 < / 2 ^ 20) by (apply Rinv_0_lt_compat, pow_lt; lra). lra. }
  assert (E20 : / 2 ^ 20 < / 2 ^ 10) by (apply Rinv_lt_contravar; [apply Rmult_lt_0_compat; apply pow_lt; lra|apply Rlt_pow; [lra|lia]]).
  split; [reflexivity|]. split; [reflexivity|]. split.
  { unfold dimensions. rewrite (Rabs_pos_eq (22 / 1000)) by lra. assert (INR 256 = 256) as -> by (rewrite INR_IZR_INZ; reflexivity). repeat match goal with |- _ /\ _ => split end; try lra; try lia. }
  split.
  { intros i j Hi Hj. cbv zeta. destruct (odd_clear i j Hi Hj) as (C1 & C2 & C3). cbv zeta in C1, C2, C3. split.
    - split; [lra|]. split; [lra|]. intros z edge Hz He. specialize (C3 z edge Hz He). assert (100 * / 2 ^ 52 * (50 * 5) <= 100 * / 2 ^ 52 * (50 * 5) ^ 2) by lra. lra.
    - intros Ho. destruct (block_01 50 3 1 20 (sample (50 * 5) 256 i) (sample (50 * 5) 256 j)) as [Z|[_ In]]; [contradiction|]. rewrite Rabs_left in C1 by lra. rewrite !Rminus_0_r. lra. }
  split; [rewrite Rabs_pos_eq; lra|]. split; [lra|]. split; [lra|].
  assert (T : turns dish_K (22 / 1000) (9 / 1000) <= 12).
  { unfold turns. replace (total_abs dish_K) with (5 / 10). 2:{ cbn [total_abs dish_K fold_right]. rewrite Rabs_R0, (Rabs_pos_eq (1 / 10)), (Rabs_pos_eq (2 / 10)), (Rabs_left (-1 / 10)) by lra. lra. } rewrite (Rabs_pos_eq (22 / 1000)) by lra. replace (INR (length dish_K)) with 6 by (rewrite INR_IZR_INZ; reflexivity). pose proof tiny_1. lra. }
  assert (T0 : 0 <= turns dish_K (22 / 1000) (9 / 1000)). { unfold turns. pose proof tiny_pos. replace (total_abs dish_K) with (5 / 10). 2:{ cbn [total_abs dish_K fold_right]. rewrite Rabs_R0, (Rabs_pos_eq (1 / 10)), (Rabs_pos_eq (2 / 10)), (Rabs_left (-1 / 10)) by lra. lra. } rewrite (Rabs_pos_eq (22 / 1000)) by lra. replace (INR (length dish_K)) with 6 by (rewrite INR_IZR_INZ; reflexivity). lra. }
  pose proof PI_4. pose proof PI_RGT_0. set (t := turns dish_K (22 / 1000) (9 / 1000)) in *. unfold field_loss, loss. replace (INR 2) with 2 by (rewrite INR_IZR_INZ; reflexivity). assert (PI * t <= 4 * 12) by (apply Rmult_le_compat; lra).
  replace (2 ^ 52) with (2 ^ 32 * 2 ^ 20) by ring. rewrite Rinv_mult. assert (I32 : / 2 ^ 32 <= / 4000000000) by (apply Rinv_le_contravar; lra). assert (I20 : / 2 ^ 20 <= 1) by (rewrite <- Rinv_1; apply Rinv_le_contravar; lra). assert (0 < / 2 ^ 20) by (apply Rinv_0_lt_compat, pow_lt; lra). assert (0 < / 2 ^ 32) by (apply Rinv_0_lt_compat, pow_lt; lra).
  assert (X : / 2 ^ 32 * / 2 ^ 20 <= / 4000000000 * 1) by (apply Rmult_le_compat; lra). set (v := / 2 ^ 32 * / 2 ^ 20) in *. assert (0 < v) by (apply Rmult_lt_0_compat; lra).
  assert (5 * (130 * 2 + 20 * (2 * (2 + 6) * (5 / 2) ^ 2) * (1 + 2 * PI * t)) <= 1000000) by lra. apply Rle_trans with (1000000 * v); [apply Rmult_le_compat_r; lra|lra].
Qed.
Lemma dish_open : block_manual 50 3 1 20 (sample (50 * 5) 256 135) (sample (50 * 5) 256 135) <> 0.
Proof.
  rewrite sample_odd by lia. replace (2 * Z.of_nat 135 - 255)%Z with 15%Z by reflexivity. unfold block_manual, assign, Rltb. cbv zeta. 
  destruct (Rlt_dec (250 / 255 * 15) 1); [lra|]. rewrite !andb_false_r. destruct (Rlt_dec _ (50 ^ 2)) as [|N1]; [|exfalso; apply N1; lra]. destruct (Rlt_dec (3 ^ 2) _) as [|N1]; [|exfalso; apply N1; lra]. cbn [andb]. lra.
Qed.
Lemma dish_short : radiation_pattern illum_parabolic (manual 50 3 1 20 30 300) [2] dish_K 0 1 256 5 = Err ValueError.
Proof.
  rewrite rad_unfold by lia. unfold aperture. assert (HK : (2 * length dish_K = (2 + 1) * (2 + 2))%nat) by reflexivity.
  destruct (W_err (/ 2 ^ 52) correct_libm 2 dish_K correct_accurate u_52 HK ltac:(reflexivity)) as (W & _ & -> & _). { unfold loss. replace (INR 2) with 2 by (rewrite INR_IZR_INZ; reflexivity). assert (/ 2 ^ 52 <= / 100000). { apply Rinv_le_contravar; [lra|]. apply Rle_trans with (2 ^ 20); [lra|apply Rle_pow; [lra|lia]]. } lra. }
  reflexivity.
Qed.
