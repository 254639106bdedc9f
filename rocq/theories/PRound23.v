(** Rounding errors of the radiation pattern for any illumination that is accurate at the points that are not blocked. *)
From Coq Require Import Reals List Lra Lia ZArith.
From Verif Require Import PyBase PyLib Sums Num MZernike SZernike MMath MAperture MTel MRad SRad SGain SFloat MFloat MFloat2 MFloat3 MFloat4 SRound SRound2 SRound3 PPolar PWave PPhase PPhase2 PAper POrder64 PRound PRound2 PRound3 PRound4 PRound5 PRound6 PRound8 PRound9 PRound10 PRound11 PRound12 PRound13 PRound14 PSim PFft PRad PFar PGain PGain3.
From Coquelicot Require Import Complex.
Import ListNotations.
Open Scope R_scope.

Section Setting.
Variables (e ef : R) (m : maths) (n : nat) (K : list R) (pr sr a L Fp F bf wavel d_z q : R) (N : nat).
Variables (illum illum64 : list R -> R -> res (R -> R -> R)) (Ic : list R) (Ea Ea64 : R -> R -> R) (A0 : R).
Hypothesis Ue : u <= e.
Hypothesis Hm : accurate_maths e m.
Hypothesis HK : (2 * length K = (n + 1) * (n + 2))%nat.
Hypothesis H53 : (8 * Z.of_nat (length K) + 1 < 2 ^ 53)%Z.
Hypothesis Hd : dimensions pr sr a L Fp F bf wavel d_z N.
Let B := pr * bf.
Hypothesis Hs : forall i j, (i < N)%nat -> (j < N)%nat -> clear (100 * e) B pr sr a L (sample B N i) (sample B N j).
Let x64 (i : nat) := linspace64 (- fl B) (fl B) N i.
Hypothesis HI : illum Ic pr = Ok Ea.
Hypothesis HI64 : illum64 Ic pr = Ok Ea64.
Hypothesis Hamp : / 2 ^ 100 <= A0.
Hypothesis Hnear : forall i j, (i < N)%nat -> (j < N)%nat -> block_manual pr sr a L (sample B N i) (sample B N j) <> 0 -> near e (122 * q * bf) A0 (Ea64 (x64 i) (x64 j)) (Ea (sample B N i) (sample B N j)).
Hypothesis Hq : 1 <= q.
Let fe := field_loss n bf q (turns K d_z wavel) * e.
Hypothesis Hsmall : fe <= / 1000.
Let tel := manual pr sr a L Fp F.
Let tel64 := manual64 pr sr a L Fp F.
Let open_ j i := block_manual pr sr a L (sample B N i) (sample B N j).
Let M := over_samples B N (block_manual pr sr a L).

Lemma pixel_any : exists E E64, aperture illum tel Ic K d_z wavel = Ok E /\ aperture64 m (illum64) tel64 Ic K d_z wavel = Ok E64 /\
  forall i j, (i < N)%nat -> (j < N)%nat -> Cmod (Cminus (E64 (x64 i) (x64 j)) (E (sample B N i) (sample B N j))) <= 2 * fe * A0 * open_ j i /\ Cmod (E (sample B N i) (sample B N j)) <= A0 * open_ j i.
Proof.
  destruct Hd as (Hpr & Hbf & Hmax & HN & N2 & Hsr & HL & H_a & HFp & HF & Hz & Hw). pose proof (e_pos e Ue) as P. pose proof tiny_pos as Tp. assert (P0 : 0 < / 2 ^ 100) by (apply Rinv_0_lt_compat, pow_lt; lra).
  assert (W0 : 0 < wavel) by lra. assert (De : 0 <= 2 * Rabs d_z / wavel). { apply Rmult_le_pos; [pose proof (Rabs_pos d_z); lra|left; apply Rinv_0_lt_compat, W0]. }
  assert (L1 : (1 <= length K)%nat) by nia. destruct (size_tiny K L1) as [S1 S2]. assert (Ht : 0 <= turns K d_z wavel) by (unfold turns; fold (size K); lra).
  destruct (field_loss_le n bf q (turns K d_z wavel) Hbf Hq Ht) as (F1 & F2 & F3 & F4). set (fl0 := field_loss n bf q (turns K d_z wavel)) in *. assert (E370 : 370 * bf * e <= fe) by (unfold fe; apply Rmult_le_compat_r; lra).
  assert (bfe : e <= bf * e) by nra. assert (E1 : e <= / 1000) by lra. assert (He : 10 * bf * e <= / 10000) by lra. pose proof (loss_12 n) as L12.
  assert (Q1 : 130 * q * bf * e <= fe) by (unfold fe; apply Rmult_le_compat_r; lra). assert (qe : q * e <= q * bf * e) by nra.
  assert (LF : (20 * bf * loss n * (1 + 2 * PI * turns K d_z wavel) + 130 * q * bf) * e <= fe) by (unfold fe; apply Rmult_le_compat_r; lra).
  assert (LE : loss n * e <= / 200). { assert (0 <= 2 * PI * turns K d_z wavel) by (pose proof PI_RGT_0; apply Rmult_le_pos; lra). set (f := 2 * PI * turns K d_z wavel) in *. assert (0 <= bf * f) by (apply Rmult_le_pos; lra). assert (loss n * e * 1 <= loss n * e * (bf * (1 + f))); [apply Rmult_le_compat_l; [apply Rmult_le_pos; lra|lra]|]. assert (0 <= q * bf * e) by (apply Rmult_le_pos; [apply Rmult_le_pos; lra|lra]). lra. }
  destruct (W_err e (m_lm m) n K (proj1 Hm) Ue HK H53 ltac:(lra)) as (W & W64 & EW & EW64 & _).
  eexists. eexists. split; [unfold aperture; rewrite EW; cbn [bind]; replace (tel_pr tel) with pr by reflexivity; rewrite HI; cbn [bind]; reflexivity|]. split; [unfold aperture64; rewrite EW64; cbn [bind]; replace (tel_pr tel64) with pr by reflexivity; rewrite HI64; cbn [bind]; reflexivity|].
  intros i j Hi Hj. pose proof (Hs i j Hi Hj) as C1. pose proof (Hnear i j Hi Hj) as NI. unfold open_. set (x := sample B N i) in *. set (y := sample B N j) in *.
  pose proof (box_grid e pr bf N Ue Hpr Hbf Hmax HN N2 i Hi) as [Gx _]. pose proof (box_grid e pr bf N Ue Hpr Hbf Hmax HN N2 j Hj) as [Gy _]. fold B in Gx, Gy. rewrite node_sample in Gx, Gy by exact N2. fold x in Gx. fold y in Gy. fold (x64 i) in Gx. fold (x64 j) in Gy.
  pose proof (block_agrees e pr bf N Ue E1 Hpr Hbf Hmax HN N2 sr a L Hsr HL H_a i j Hi Hj) as Ba. fold B in Ba. rewrite !node_sample in Ba by exact N2. fold x y (x64 i) (x64 j) in Ba. specialize (Ba C1).
  unfold cart2pol64, cart2pol. cbn [tel64 manual64 tel manual block_dist opd_func tel_pr]. fold x y. rewrite Ba. destruct (block_01 pr sr a L x y) as [Z|[Z In]]; rewrite Z.
  { rewrite !Rmult_0_l, fl_0, !Rmult_0_l, fl_0. replace (0, 0) with (RtoC 0) by reflexivity. replace (Cminus (RtoC 0) (RtoC 0)) with (RtoC 0) by (unfold Cminus; ring). rewrite Cmod_0. lra. }
  assert (Zn : block_manual pr sr a L x y <> 0) by (rewrite Z; lra). specialize (NI Zn). destruct C1 as (C1 & _).
  assert (Hin0 : x ^ 2 + y ^ 2 <= pr ^ 2 - 100 * e * B ^ 2). { rewrite Rabs_left in C1 by lra. lra. }
  assert (HB2 : bf * pr ^ 2 * e <= e * B ^ 2 /\ pr ^ 2 * e <= e * B ^ 2). { unfold B. replace (e * (pr * bf) ^ 2) with (bf * bf * (pr ^ 2 * e)) by ring. assert (0 <= pr ^ 2 * e) by (apply Rmult_le_pos; [apply pow2_ge_0|lra]). assert (bf <= bf * bf) by nra. split; [replace (bf * pr ^ 2 * e) with (bf * (pr ^ 2 * e)) by ring|rewrite <- (Rmult_1_l (pr ^ 2 * e)) at 1]; apply Rmult_le_compat_r; lra. }
  assert (D1 : Rabs (x64 i - x) <= 10 * bf * e * pr) by (eapply Rle_trans; [exact Gx|]; unfold B; right; ring). assert (D2 : Rabs (x64 j - y) <= 10 * bf * e * pr) by (eapply Rle_trans; [exact Gy|]; unfold B; right; ring).
  assert (Rin : rr x y <= pr). { unfold rr. rewrite <- (sqrt_pow2 pr) by lra. apply sqrt_le_1_alt. lra. }
  pose proof (opd_near e Ue E1 pr (10 * bf) x y (x64 i) (x64 j) Hpr ltac:(lra) ltac:(lra) D1 D2 Fp F d_z wavel Rin HFp HF Hz Hw) as NO.
  apply (near_le e Ue _ (12 * (10 * bf) + 72)) in NO; [|lra].
  match type of NI with near _ ?kk ?ww ?aa ?bb => set (Ea64' := aa) in *; set (Ea' := bb) in *; set (kI := kk) in * end.
  assert (kIe : kI * e <= 122 * q * bf * e). { unfold kI. lra. }
  assert (Tu : turns K d_z wavel = size K + 2 * Rabs d_z / wavel) by reflexivity. rewrite Tu in *. set (w := size K + 2 * Rabs d_z / wavel) in *.
  assert (Pw : 0 <= 2 * PI * w) by (pose proof PI_RGT_0; apply Rmult_le_pos; lra).
  assert (Hk : (10 * bf + 7) * loss n * (1 + 2 * PI * w) * e <= 17 * bf * loss n * (1 + 2 * PI * w) * e). { apply Rmult_le_compat_r; [lra|]. apply Rmult_le_compat_r; [lra|]. apply Rmult_le_compat_r; lra. }
  assert (qb : 0 <= q * bf * e) by nra. assert (L0 : 0 <= bf * loss n * (1 + 2 * PI * w) * e) by (apply Rmult_le_pos; [apply Rmult_le_pos; [nra|lra]|lra]).
  pose proof (field_near e Ue E1 m Hm pr (10 * bf) x y (x64 i) (x64 j) Hpr ltac:(lra) He D1 D2 n K W W64 1 Ea' Ea64' A0 kI (opd_manual Fp F x y d_z / wavel) (fl (opd_manual64 Fp F (x64 i) (x64 j) d_z / wavel)) (2 * Rabs d_z / wavel) HK H53 EW EW64) as FN.
  assert (Ti : tiny <= A0). { destruct small_300 as [T3 _]. apply Rle_trans with (/ 2 ^ 100); lra. }
  assert (Y1 : 0 <= kI). { unfold kI. assert (0 <= q * bf) by (apply Rmult_le_pos; lra). lra. }
  assert (Y2 : kI * e <= / 50) by lra.
  assert (Y3 : x ^ 2 + y ^ 2 <= (1 - (4 * (10 * bf) + 12) * e) * pr ^ 2). { eapply Rle_trans; [exact Hin0|]. assert (0 <= pr ^ 2 * e) by (apply Rmult_le_pos; [apply pow2_ge_0|lra]). lra. }
  assert (Y4 : (10 * bf + 7) * loss n * (1 + 2 * PI * w) * e <= / 50) by lra.
  specialize (FN Ti Y1 Y2 NO NI (or_intror (conj eq_refl Y3)) Y4). fold w in FN. cbv zeta in FN.
  unfold r64, rr in FN. set (phi64 := fl (fl (fl (W64 _ _ + _) * 2) * fl PI)) in *. set (phi := (W _ _ + _) * 2 * PI) in *. destruct FN as [[NC _] [NS _]]. destruct NI as [_ NI].
  set (kk := (kI + 5 + 11 / 10 * ((10 * bf + 7) * loss n * (2 * PI * w))) * e) in *. assert (Kk : kk <= fe). { unfold kk. assert (Z3 : (10 * bf + 7) * loss n * (2 * PI * w) * e <= (10 * bf + 7) * loss n * (1 + 2 * PI * w) * e) by (apply Rmult_le_compat_r; [lra|]; apply Rmult_le_compat_l; [apply Rmult_le_pos; lra|lra]). lra. }
  assert (A1 : 0 < A0) by lra. split.
  - unfold Cminus, Cplus, Copp. cbn [fst snd]. eapply Rle_trans; [apply Cmod_le|]. unfold Rminus in NC, NS. assert (kk * A0 <= fe * A0) by (apply Rmult_le_compat_r; lra). lra.
  - replace (1 * Ea' * cos phi, 1 * Ea' * sin phi) with (Cmult (RtoC Ea') (cis phi)) by (unfold Cmult, cis, RtoC; cbn [fst snd]; f_equal; ring). rewrite Cmod_mult, Cmod_R, cis_mod. lra.
Qed.

Hypothesis Hfft : accurate_fft ef (m_fft m).
Hypothesis Hef : 0 <= ef <= / 1000.
Lemma pattern_any : exists ua va F0 ua64 va64 F64, radiation_pattern illum tel Ic K d_z wavel N bf = Ok (ua, va, F0) /\ radiation_pattern64 m (illum64) tel64 Ic K d_z wavel N bf = Ok (ua64, va64, F64) /\
  ua64 = map (u_axis64 pr bf wavel N) (seq 0 N) /\ va64 = ua64 /\ rectC N N F0 /\ rectC N N F64 /\
  forall j i, (j < N)%nat -> (i < N)%nat -> Cmod (Cminus (at2 F64 j i) (at2 F0 j i)) <= 2 * (fe + ef) * (A0 * M) /\ Cmod (at2 F0 j i) <= A0 * M.
Proof.
  destruct pixel_any as (E & E64 & EA & EA64 & HE). assert (N2 : (2 <= N)%nat) by (destruct Hd as (_ & _ & _ & _ & H & _); exact H).
  pose proof (rad_unfold illum tel Ic K d_z wavel N bf N2) as RU. cbv zeta in RU. rewrite EA in RU. cbn [bind] in RU. change (tel_pr tel * bf) with B in RU.
  do 6 eexists. split; [exact RU|]. split. { rewrite rad64_unfold by exact N2. cbv zeta. rewrite EA64. reflexivity. }
  split; [reflexivity|]. split; [reflexivity|]. change (tel_pr tel64 * bf) with B.
  set (S0 := sampled E B N). set (S64 := map2d (fun '(a0, b) => E64 a0 b) (meshgrid (map (linspace64 (- fl B) (fl B) N) (seq 0 N)) (map (linspace64 (- fl B) (fl B) N) (seq 0 N)))).
  assert (R0 : rectC N N S0) by apply sampled_rect. assert (R1 : rectC N N S64) by apply (mesh_rect N). assert (RF : rectC N N (fft2 S0)) by (apply fft2_rect; [exact R0|lia]).
  destruct (Hfft S64 N (proj1 R1) (proj2 R1)) as (FL & FR & FE). assert (R64 : rectC N N (m_fft m S64)) by (split; assumption).
  split; [apply fftshift2_rect, RF|]. split; [apply fftshift2_rect, R64|].
  assert (A : forall j i, (j < N)%nat -> (i < N)%nat -> at2 S0 j i = E (sample B N i) (sample B N j) /\ at2 S64 j i = E64 (x64 i) (x64 j)).
  { intros j i Hj Hi. split; [unfold S0; rewrite sampled_at by assumption; rewrite !gx_sample by exact N2; reflexivity|]. unfold S64. rewrite (mesh_at N) by assumption. reflexivity. }
  assert (Ep : 0 < e) by (apply e_pos, Ue). assert (P0 : 0 < / 2 ^ 100) by (apply Rinv_0_lt_compat, pow_lt; lra). assert (Ai : 0 <= A0) by lra.
  assert (Op : forall j i, 0 <= open_ j i). { intros j i. unfold open_. destruct (block_01 pr sr a L (sample B N i) (sample B N j)) as [->|[-> _]]; lra. }
  assert (Sc : forall c, Rsum N (fun j => Rsum N (fun i => c * open_ j i)) = c * M). { intros c. exact (over_scal B N c (block_manual pr sr a L)). }
  assert (Sum1 : Rsum N (fun j => Rsum N (fun i => Cmod (Cminus (at2 S64 j i) (at2 S0 j i)))) <= 2 * fe * A0 * M).
  { rewrite <- Sc. apply Rsum_le. intros j Hj. apply Rsum_le. intros i Hi. destruct (A j i Hj Hi) as [-> ->]. apply HE; assumption. }
  assert (Sum0 : Rsum N (fun j => Rsum N (fun i => Cmod (at2 S0 j i))) <= A0 * M). { rewrite <- Sc. apply Rsum_le. intros j Hj. apply Rsum_le. intros i Hi. destruct (A j i Hj Hi) as [-> _]. apply HE; assumption. }
  assert (Sum64 : Rsum N (fun j => Rsum N (fun i => Cmod (at2 S64 j i))) <= 11 / 10 * (A0 * M)).
  { replace (11 / 10 * (A0 * M)) with (11 / 10 * A0 * M) by ring. rewrite <- Sc. apply Rsum_le. intros j Hj. apply Rsum_le. intros i Hi. destruct (A j i Hj Hi) as [_ ->]. destruct (HE i j Hi Hj) as [H1 H2].
    replace (E64 (x64 i) (x64 j)) with (Cplus (Cminus (E64 (x64 i) (x64 j)) (E (sample B N i) (sample B N j))) (E (sample B N i) (sample B N j))) by (unfold Cminus; ring). eapply Rle_trans; [apply Cmod_triangle|].
    assert (0 <= A0 * open_ j i) by (apply Rmult_le_pos; [exact Ai|apply Op]). assert (2 * fe * (A0 * open_ j i) <= 2 * / 1000 * (A0 * open_ j i)) by (apply Rmult_le_compat_r; lra). lra. }
  assert (M0 : 0 <= A0 * M). { eapply Rle_trans; [|exact Sum0]. apply Rsum_nonneg. intros j _. apply Rsum_nonneg. intros i _. apply Cmod_ge_0. }
  intros j i Hj Hi. rewrite !(fftshift2_at _ N N) by assumption. pose proof (shift_idx_lt N j Hj) as Hj'. pose proof (shift_idx_lt N i Hi) as Hi'. set (j' := shift_idx N j) in *. set (i' := shift_idx N i) in *. split.
  - replace (Cminus (at2 (m_fft m S64) j' i') (at2 (fft2 S0) j' i')) with (Cplus (Cminus (at2 (m_fft m S64) j' i') (at2 (fft2 S64) j' i')) (Cminus (at2 (fft2 S64) j' i') (at2 (fft2 S0) j' i'))) by (unfold Cminus; ring).
    eapply Rle_trans; [apply Cmod_triangle|]. pose proof (FE j' i' Hj' Hi') as Q1. pose proof (fft_diff n K N HK S64 S0 j' i' N2 R1 R0 Hj' Hi') as Q2. assert (ef * Rsum N (fun b => Rsum N (fun a0 => Cmod (at2 S64 b a0))) <= ef * (11 / 10 * (A0 * M))) by (apply Rmult_le_compat_l; lra).
    assert (0 <= ef * (A0 * M)) by (apply Rmult_le_pos; lra). lra.
  - eapply Rle_trans; [apply (fft_bound n K N HK); assumption|]. exact Sum0.
Qed.

Lemma power_any : 1 <= M -> exists ua va F0 ua64 va64 F64, radiation_pattern illum tel Ic K d_z wavel N bf = Ok (ua, va, F0) /\ radiation_pattern64 m (illum64) tel64 Ic K d_z wavel N bf = Ok (ua64, va64, F64) /\
  forall j i, (j < N)%nat -> (i < N)%nat -> Rabs (nth i (nth j (power_pattern64 m F64) []) 0 - nth i (nth j (power_pattern F0) []) 0) <= 5 * (fe + ef) * (A0 * M) ^ 2 /\ 0 <= nth i (nth j (power_pattern F0) []) 0 <= (A0 * M) ^ 2.
Proof.
  intros HM. destruct pattern_any as (ua & va & F0 & ua64 & va64 & F64 & R0 & R1 & _ & _ & RF & RF64 & HE). exists ua, va, F0, ua64, va64, F64. split; [exact R0|]. split; [exact R1|]. intros j i Hj Hi. rewrite (power64_at n K N HK) by assumption. rewrite (power_at F0 j i N) by (first [assumption|apply RF]).
  destruct (HE j i Hj Hi) as [Q1 Q2]. set (S := A0 * M) in *. assert (P0 : 0 < / 2 ^ 100) by (apply Rinv_0_lt_compat, pow_lt; lra). assert (HS : / 2 ^ 100 <= S) by (unfold S; nra).
  assert (D1 : 700 * e <= 2 * (fe + ef)).
  { destruct Hd as (_ & Hbf & _ & _ & _ & _ & _ & _ & _ & _ & _ & Hw). assert (De : 0 <= 2 * Rabs d_z / wavel). { apply Rmult_le_pos; [pose proof (Rabs_pos d_z); lra|left; apply Rinv_0_lt_compat; lra]. }
    assert (L1 : (1 <= length K)%nat) by nia. destruct (size_tiny K L1) as [S1 S2]. pose proof tiny_pos. assert (Ht : 0 <= turns K d_z wavel) by (unfold turns; fold (size K); lra). destruct (field_loss_le n bf q (turns K d_z wavel) Hbf Hq Ht) as (_ & _ & F3 & _). pose proof (e_pos e Ue). assert (370 * e <= fe) by (unfold fe; apply Rmult_le_compat_r; lra). lra. }
  split.
  - eapply Rle_trans; [apply (abs_square e m n K Ue Hm HK _ _ S (2 * (fe + ef)) HS Q2 Q1 D1); lra|]. pose proof (e_pos e Ue). assert (0 <= (fe + ef) * S ^ 2) by (apply Rmult_le_pos; [lra|apply pow2_ge_0]). lra.
  - pose proof (Cmod_ge_0 (at2 F0 j i)). split; [apply pow2_ge_0|]. apply pow_incr. lra.
Qed.
End Setting.
