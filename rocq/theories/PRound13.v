(** Rounding errors of the radiation pattern. *)
From Coq Require Import Reals List Lra Lia ZArith.
From Verif Require Import PyBase PyLib Sums Num MZernike SZernike MMath MAperture MTel MRad SRad SGain SFloat MFloat MFloat2 MFloat3 MFloat4 SRound SRound2 SRound3 PPolar PWave PPhase PPhase2 PAper POrder64 PRound PRound2 PRound3 PRound4 PRound5 PRound6 PRound8 PRound9 PRound10 PRound11 PRound12 PSim PFft PRad PFar PGain PGain3.
From Coquelicot Require Import Complex.
Import ListNotations.
Open Scope R_scope.

Lemma block_01 pr sr a L x y : block_manual pr sr a L x y = 0 \/ block_manual pr sr a L x y = 1 /\ x ^ 2 + y ^ 2 < pr ^ 2.
Proof.
  unfold block_manual, assign. cbv zeta. destruct (_ && Rltb y (sr + L) && _ && _); [left; reflexivity|]. destruct (_ && Rltb x (sr + L) && _ && _); [left; reflexivity|].
  destruct (Rltb (x ^ 2 + y ^ 2) (pr ^ 2)) eqn:E; cbn [andb]; [|left; reflexivity]. destruct (Rltb (sr ^ 2) _); [right|left; reflexivity]. split; [reflexivity|]. unfold Rltb in E. destruct (Rlt_dec (x ^ 2 + y ^ 2) (pr ^ 2)); [assumption|discriminate].
Qed.
Lemma node_sample B N i : (2 <= N)%nat -> node B N i = sample B N i.
Proof. intros H. rewrite <- gx_sample by exact H. reflexivity. Qed.
Lemma field_loss_le (n : nat) bf q t : 1 <= bf -> 1 <= q -> 0 <= t -> 130 * q * bf <= field_loss n bf q t /\ 20 * bf * loss n * (1 + 2 * PI * t) <= field_loss n bf q t - 130 * q * bf /\ 370 * bf <= field_loss n bf q t /\ 240 <= 20 * loss n * (1 + 2 * PI * t).
Proof.
  intros B Q Ht. pose proof (loss_12 n) as L. pose proof PI_RGT_0 as P0. assert (A : 0 <= 2 * PI * t) by (apply Rmult_le_pos; lra). set (f := 2 * PI * t) in *. unfold field_loss. fold f. assert (G : 240 <= 20 * loss n * (1 + f)) by nra. set (g := 20 * loss n * (1 + f)) in *.
  replace (20 * bf * loss n * (1 + f)) with (bf * g) by (unfold g; ring). repeat split; nra.
Qed.

Lemma rad64_unfold m illum tel I K d_z wavel N bf : (2 <= N)%nat -> let B := fl (tel_pr tel * bf) in let x := map (linspace64 (- B) B N) (seq 0 N) in let axis := map (u_axis64 (tel_pr tel) bf wavel N) (seq 0 N) in
  radiation_pattern64 m illum tel I K d_z wavel N bf = bind (aperture64 m illum tel I K d_z wavel) (fun E => Ok (axis, axis, fftshift2 (m_fft m (map2d (fun '(a, b) => E a b) (meshgrid x x))))).
Proof. intros H. cbv zeta. unfold radiation_pattern64. cbv zeta. destruct N as [|[|N']]; [lia|lia|]. unfold py_get. cbn [seq map nth_error bind]. reflexivity. Qed.

Section Setting.
Variables (e ef : R) (m : maths) (n : nat) (K : list R) (pr sr a L Fp F bf wavel d_z i_amp c_dB q x0 y0 : R) (N : nat).
Hypothesis Ue : u <= e.
Hypothesis Hm : accurate_maths e m.
Hypothesis HK : (2 * length K = (n + 1) * (n + 2))%nat.
Hypothesis H53 : (8 * Z.of_nat (length K) + 1 < 2 ^ 53)%Z.
Hypothesis Hd : dimensions pr sr a L Fp F bf wavel d_z N.
Hypothesis Hs : samples_clear e pr sr a L bf x0 y0 N.
Hypothesis Hamp : / 2 ^ 100 <= Rabs i_amp.
Hypothesis Hc : -100 <= c_dB <= 0.
Hypothesis Hq : 1 <= q.
Let fe := field_loss n bf q (turns K d_z wavel) * e.
Hypothesis Hsmall : fe <= / 1000.
Let tel := manual pr sr a L Fp F.
Let tel64 := manual64 pr sr a L Fp F.
Let Ic := [i_amp; c_dB; q; x0; y0].
Let B := pr * bf.
Let x64 (i : nat) := linspace64 (- fl B) (fl B) N i.
Let open_ j i := block_manual pr sr a L (sample B N i) (sample B N j).
Let M := over_samples B N (block_manual pr sr a L).

Lemma pixel_field : exists E E64, aperture illum_parabolic tel Ic K d_z wavel = Ok E /\ aperture64 m (illum_parabolic64 m) tel64 Ic K d_z wavel = Ok E64 /\
  forall i j, (i < N)%nat -> (j < N)%nat -> Cmod (Cminus (E64 (x64 i) (x64 j)) (E (sample B N i) (sample B N j))) <= 2 * fe * Rabs i_amp * open_ j i /\ Cmod (E (sample B N i) (sample B N j)) <= Rabs i_amp * open_ j i.
Proof.
  destruct Hd as (Hpr & Hbf & Hmax & HN & N2 & Hsr & HL & H_a & HFp & HF & Hz & Hw). pose proof (e_pos e Ue) as P. pose proof tiny_pos as Tp. assert (P0 : 0 < / 2 ^ 100) by (apply Rinv_0_lt_compat, pow_lt; lra).
  assert (W0 : 0 < wavel) by lra. assert (De : 0 <= 2 * Rabs d_z / wavel). { apply Rmult_le_pos; [pose proof (Rabs_pos d_z); lra|left; apply Rinv_0_lt_compat, W0]. }
  assert (L1 : (1 <= length K)%nat) by nia. destruct (size_tiny K L1) as [S1 S2]. assert (Ht : 0 <= turns K d_z wavel) by (unfold turns; fold (size K); lra).
  destruct (field_loss_le n bf q (turns K d_z wavel) Hbf Hq Ht) as (F1 & F2 & F3 & F4). set (fl0 := field_loss n bf q (turns K d_z wavel)) in *. assert (E370 : 370 * bf * e <= fe) by (unfold fe; apply Rmult_le_compat_r; lra).
  assert (bfe : e <= bf * e) by nra. assert (E1 : e <= / 1000) by lra. assert (He : 10 * bf * e <= / 10000) by lra. pose proof (loss_12 n) as L12.
  assert (Q1 : 130 * q * bf * e <= fe) by (unfold fe; apply Rmult_le_compat_r; lra). assert (qe : q * e <= q * bf * e) by nra.
  assert (LF : (20 * bf * loss n * (1 + 2 * PI * turns K d_z wavel) + 130 * q * bf) * e <= fe) by (unfold fe; apply Rmult_le_compat_r; lra).
  assert (LE : loss n * e <= / 200). { assert (0 <= 2 * PI * turns K d_z wavel) by (pose proof PI_RGT_0; apply Rmult_le_pos; lra). set (f := 2 * PI * turns K d_z wavel) in *. assert (0 <= bf * f) by (apply Rmult_le_pos; lra). assert (loss n * e * 1 <= loss n * e * (bf * (1 + f))); [apply Rmult_le_compat_l; [apply Rmult_le_pos; lra|lra]|]. assert (0 <= q * bf * e) by (apply Rmult_le_pos; [apply Rmult_le_pos; lra|lra]). lra. }
  destruct (W_err e (m_lm m) n K (proj1 Hm) Ue HK H53 ltac:(lra)) as (W & W64 & EW & EW64 & _).
  eexists. eexists. split; [unfold aperture; rewrite EW; cbn [bind]; unfold Ic, illum_parabolic; cbn [bind]; reflexivity|]. split; [unfold aperture64; rewrite EW64; cbn [bind]; unfold Ic, illum_parabolic64; cbn [bind]; reflexivity|].
  intros i j Hi Hj. destruct (Hs i j Hi Hj) as [C1 C2]. fold B in C1, C2. unfold open_. set (x := sample B N i) in *. set (y := sample B N j) in *.
  pose proof (box_grid e pr bf N Ue Hpr Hbf Hmax HN N2 i Hi) as [Gx _]. pose proof (box_grid e pr bf N Ue Hpr Hbf Hmax HN N2 j Hj) as [Gy _]. fold B in Gx, Gy. rewrite node_sample in Gx, Gy by exact N2. fold x in Gx. fold y in Gy. fold (x64 i) in Gx. fold (x64 j) in Gy.
  pose proof (block_agrees e pr bf N Ue E1 Hpr Hbf Hmax HN N2 sr a L Hsr HL H_a i j Hi Hj) as Ba. fold B in Ba. rewrite !node_sample in Ba by exact N2. fold x y (x64 i) (x64 j) in Ba. specialize (Ba C1).
  unfold cart2pol64, cart2pol. cbn [tel64 manual64 tel manual block_dist opd_func tel_pr]. fold x y. rewrite Ba. destruct (block_01 pr sr a L x y) as [Z|[Z In]]; rewrite Z.
  { rewrite !Rmult_0_l, fl_0, !Rmult_0_l, fl_0. replace (0, 0) with (RtoC 0) by reflexivity. replace (Cminus (RtoC 0) (RtoC 0)) with (RtoC 0) by (unfold Cminus; ring). rewrite Cmod_0. lra. }
  assert (Hin : (x - x0) ^ 2 + (y - y0) ^ 2 <= pr ^ 2 - 100 * e * B ^ 2) by (apply C2; rewrite Z; lra). destruct C1 as (C1 & _).
  assert (Hin0 : x ^ 2 + y ^ 2 <= pr ^ 2 - 100 * e * B ^ 2). { rewrite Rabs_left in C1 by lra. lra. }
  assert (HB2 : bf * pr ^ 2 * e <= e * B ^ 2 /\ pr ^ 2 * e <= e * B ^ 2). { unfold B. replace (e * (pr * bf) ^ 2) with (bf * bf * (pr ^ 2 * e)) by ring. assert (0 <= pr ^ 2 * e) by (apply Rmult_le_pos; [apply pow2_ge_0|lra]). assert (bf <= bf * bf) by nra. split; [replace (bf * pr ^ 2 * e) with (bf * (pr ^ 2 * e)) by ring|rewrite <- (Rmult_1_l (pr ^ 2 * e)) at 1]; apply Rmult_le_compat_r; lra. }
  assert (D1 : Rabs (x64 i - x) <= 10 * bf * e * pr) by (eapply Rle_trans; [exact Gx|]; unfold B; right; ring). assert (D2 : Rabs (x64 j - y) <= 10 * bf * e * pr) by (eapply Rle_trans; [exact Gy|]; unfold B; right; ring).
  assert (Z1 : q * (5 * (10 * bf) + 30) * e <= / 50). { replace (q * (5 * (10 * bf) + 30) * e) with (50 * (q * bf * e) + 30 * (q * e)) by ring. lra. }
  assert (Z2 : (x - x0) ^ 2 + (y - y0) ^ 2 <= (1 - (5 * (10 * bf) + 25) * e) * pr ^ 2). { eapply Rle_trans; [exact Hin|]. assert (0 <= pr ^ 2 * e) by (apply Rmult_le_pos; [apply pow2_ge_0|lra]). lra. }
  destruct (illum_near e Ue E1 m Hm pr (10 * bf) x y (x64 i) (x64 j) Hpr ltac:(lra) He D1 D2 i_amp c_dB q x0 y0 Hamp Hc Hq Z1 Z2) as (Ea & Ea64 & IE & IE64 & NI). unfold illum_parabolic in IE. unfold illum_parabolic64 in IE64. apply Ok_inj in IE. apply Ok_inj in IE64. subst Ea Ea64. cbv beta zeta in NI.
  assert (Rin : rr x y <= pr). { unfold rr. rewrite <- (sqrt_pow2 pr) by lra. apply sqrt_le_1_alt. lra. }
  pose proof (opd_near e Ue E1 pr (10 * bf) x y (x64 i) (x64 j) Hpr ltac:(lra) ltac:(lra) D1 D2 Fp F d_z wavel Rin HFp HF Hz Hw) as NO.
  apply (near_le e Ue _ (12 * (10 * bf) + 72)) in NO; [|lra].
  match type of NI with near _ ?kk ?ww ?aa ?bb => set (Ea64 := aa) in *; set (Ea := bb) in *; set (kI := kk) in * end.
  assert (kIe : kI * e <= 122 * q * bf * e). { unfold kI. apply Rmult_le_compat_r; [lra|]. assert (q <= q * bf) by nra. lra. }
  assert (Tu : turns K d_z wavel = size K + 2 * Rabs d_z / wavel) by reflexivity. rewrite Tu in *. set (w := size K + 2 * Rabs d_z / wavel) in *.
  assert (Pw : 0 <= 2 * PI * w) by (pose proof PI_RGT_0; apply Rmult_le_pos; lra).
  assert (Hk : (10 * bf + 7) * loss n * (1 + 2 * PI * w) * e <= 17 * bf * loss n * (1 + 2 * PI * w) * e). { apply Rmult_le_compat_r; [lra|]. apply Rmult_le_compat_r; [lra|]. apply Rmult_le_compat_r; lra. }
  assert (qb : 0 <= q * bf * e) by nra. assert (L0 : 0 <= bf * loss n * (1 + 2 * PI * w) * e) by (apply Rmult_le_pos; [apply Rmult_le_pos; [nra|lra]|lra]).
  pose proof (field_near e Ue E1 m Hm pr (10 * bf) x y (x64 i) (x64 j) Hpr ltac:(lra) He D1 D2 n K W W64 1 Ea Ea64 (Rabs i_amp) kI (opd_manual Fp F x y d_z / wavel) (fl (opd_manual64 Fp F (x64 i) (x64 j) d_z / wavel)) (2 * Rabs d_z / wavel) HK H53 EW EW64) as FN.
  assert (Ti : tiny <= Rabs i_amp). { destruct small_300 as [T3 _]. apply Rle_trans with (/ 2 ^ 100); lra. }
  assert (Y1 : 0 <= kI). { unfold kI. assert (0 <= q * (5 * (10 * bf) + 27)) by (apply Rmult_le_pos; lra). lra. }
  assert (Y2 : kI * e <= / 50) by lra.
  assert (Y3 : x ^ 2 + y ^ 2 <= (1 - (4 * (10 * bf) + 12) * e) * pr ^ 2). { eapply Rle_trans; [exact Hin0|]. assert (0 <= pr ^ 2 * e) by (apply Rmult_le_pos; [apply pow2_ge_0|lra]). lra. }
  assert (Y4 : (10 * bf + 7) * loss n * (1 + 2 * PI * w) * e <= / 50) by lra.
  specialize (FN Ti Y1 Y2 NO NI (or_intror (conj eq_refl Y3)) Y4). fold w in FN. cbv zeta in FN.
  unfold r64, rr in FN. set (phi64 := fl (fl (fl (W64 _ _ + _) * 2) * fl PI)) in *. set (phi := (W _ _ + _) * 2 * PI) in *. destruct FN as [[NC _] [NS _]]. destruct NI as [_ NI].
  set (kk := (kI + 5 + 11 / 10 * ((10 * bf + 7) * loss n * (2 * PI * w))) * e) in *. assert (Kk : kk <= fe). { unfold kk. assert (Z3 : (10 * bf + 7) * loss n * (2 * PI * w) * e <= (10 * bf + 7) * loss n * (1 + 2 * PI * w) * e) by (apply Rmult_le_compat_r; [lra|]; apply Rmult_le_compat_l; [apply Rmult_le_pos; lra|lra]). lra. }
  assert (A0 : 0 < Rabs i_amp) by lra. split.
  - unfold Cminus, Cplus, Copp. cbn [fst snd]. eapply Rle_trans; [apply Cmod_le|]. unfold Rminus in NC, NS. assert (kk * Rabs i_amp <= fe * Rabs i_amp) by (apply Rmult_le_compat_r; lra). lra.
  - replace (1 * Ea * cos phi, 1 * Ea * sin phi) with (Cmult (RtoC Ea) (cis phi)) by (unfold Cmult, cis, RtoC; cbn [fst snd]; f_equal; ring). rewrite Cmod_mult, Cmod_R, cis_mod. lra.
Qed.

(** ** The Fourier transform *)
Lemma mesh_rect (G : R * R -> C) (g : nat -> R) : rectC N N (map2d G (meshgrid (map g (seq 0 N)) (map g (seq 0 N)))).
Proof. unfold map2d, meshgrid. split; [rewrite !map_length, seq_length; reflexivity|]. intros row H. rewrite !map_map in H. apply in_map_iff in H as (y & <- & _). rewrite !map_length, seq_length. reflexivity. Qed.
Lemma mesh_at (G : R * R -> C) (g : nat -> R) j i : (j < N)%nat -> (i < N)%nat -> at2 (map2d G (meshgrid (map g (seq 0 N)) (map g (seq 0 N)))) j i = G (g i, g j).
Proof.
  intros Hj Hi. unfold at2, map2d, meshgrid. rewrite !map_map.
  rewrite nth_indep with (d' := (fun b => map G (map (fun xi => (xi, g b)) (map g (seq 0 N)))) O) by (rewrite map_length, seq_length; exact Hj). rewrite map_nth with (f := fun b => map G (map (fun xi => (xi, g b)) (map g (seq 0 N)))). rewrite seq_nth by exact Hj. cbn [Nat.add]. rewrite !map_map.
  rewrite nth_indep with (d' := (fun b => G (g b, g j)) O) by (rewrite map_length, seq_length; exact Hi). rewrite map_nth with (f := fun b => G (g b, g j)). rewrite seq_nth by exact Hi. reflexivity.
Qed.
Lemma dft_bound k f : Cmod (dft N f k) <= Rsum N (fun j => Cmod (f j)).
Proof. unfold dft. eapply Rle_trans; [apply Cmod_Csum|]. apply Rsum_le. intros j _. rewrite Cmod_mult, cis_mod. lra. Qed.
Lemma dft_minus k f g : Cminus (dft N f k) (dft N g k) = dft N (fun j => Cminus (f j) (g j)) k.
Proof. unfold dft. rewrite Csum_minus. apply Csum_ext. intros j _. unfold Cminus. ring. Qed.
Lemma fft_diff M1 M2 b c : (2 <= N)%nat -> rectC N N M1 -> rectC N N M2 -> (b < N)%nat -> (c < N)%nat ->
  Cmod (Cminus (at2 (fft2 M1) b c) (at2 (fft2 M2) b c)) <= Rsum N (fun j => Rsum N (fun i => Cmod (Cminus (at2 M1 j i) (at2 M2 j i)))).
Proof.
  intros N2 R1 R2 Hb Hc0. rewrite !(fft2_at _ N N) by (first [assumption|lia]). rewrite dft_minus. eapply Rle_trans; [apply dft_bound|]. apply Rsum_le. intros j _. rewrite dft_minus. apply dft_bound.
Qed.
Lemma fft_bound M1 b c : (2 <= N)%nat -> rectC N N M1 -> (b < N)%nat -> (c < N)%nat -> Cmod (at2 (fft2 M1) b c) <= Rsum N (fun j => Rsum N (fun i => Cmod (at2 M1 j i))).
Proof. intros N2 R1 Hb Hc0. rewrite (fft2_at _ N N) by (first [assumption|lia]). eapply Rle_trans; [apply dft_bound|]. apply Rsum_le. intros j _. apply dft_bound. Qed.

Hypothesis Hfft : accurate_fft ef (m_fft m).
Hypothesis Hef : 0 <= ef <= / 1000.
Lemma pattern_err : exists ua va F0 ua64 va64 F64, radiation_pattern illum_parabolic tel Ic K d_z wavel N bf = Ok (ua, va, F0) /\ radiation_pattern64 m (illum_parabolic64 m) tel64 Ic K d_z wavel N bf = Ok (ua64, va64, F64) /\
  ua64 = map (u_axis64 pr bf wavel N) (seq 0 N) /\ va64 = ua64 /\ rectC N N F0 /\ rectC N N F64 /\
  forall j i, (j < N)%nat -> (i < N)%nat -> Cmod (Cminus (at2 F64 j i) (at2 F0 j i)) <= 2 * (fe + ef) * (Rabs i_amp * M) /\ Cmod (at2 F0 j i) <= Rabs i_amp * M.
Proof.
  destruct pixel_field as (E & E64 & EA & EA64 & HE). assert (N2 : (2 <= N)%nat) by (destruct Hd as (_ & _ & _ & _ & H & _); exact H).
  pose proof (rad_unfold illum_parabolic tel Ic K d_z wavel N bf N2) as RU. cbv zeta in RU. rewrite EA in RU. cbn [bind] in RU. change (tel_pr tel * bf) with B in RU.
  do 6 eexists. split; [exact RU|]. split. { rewrite rad64_unfold by exact N2. cbv zeta. rewrite EA64. reflexivity. }
  split; [reflexivity|]. split; [reflexivity|]. change (tel_pr tel64 * bf) with B.
  set (S0 := sampled E B N). set (S64 := map2d (fun '(a0, b) => E64 a0 b) (meshgrid (map (linspace64 (- fl B) (fl B) N) (seq 0 N)) (map (linspace64 (- fl B) (fl B) N) (seq 0 N)))).
  assert (R0 : rectC N N S0) by apply sampled_rect. assert (R1 : rectC N N S64) by apply mesh_rect. assert (RF : rectC N N (fft2 S0)) by (apply fft2_rect; [exact R0|lia]).
  destruct (Hfft S64 N (proj1 R1) (proj2 R1)) as (FL & FR & FE). assert (R64 : rectC N N (m_fft m S64)) by (split; assumption).
  split; [apply fftshift2_rect, RF|]. split; [apply fftshift2_rect, R64|].
  assert (A : forall j i, (j < N)%nat -> (i < N)%nat -> at2 S0 j i = E (sample B N i) (sample B N j) /\ at2 S64 j i = E64 (x64 i) (x64 j)).
  { intros j i Hj Hi. split; [unfold S0; rewrite sampled_at by assumption; rewrite !gx_sample by exact N2; reflexivity|]. unfold S64. rewrite mesh_at by assumption. reflexivity. }
  assert (Ep : 0 < e) by (apply e_pos, Ue). assert (Ai : 0 <= Rabs i_amp) by apply Rabs_pos.
  assert (Op : forall j i, 0 <= open_ j i). { intros j i. unfold open_. destruct (block_01 pr sr a L (sample B N i) (sample B N j)) as [->|[-> _]]; lra. }
  assert (Sc : forall c, Rsum N (fun j => Rsum N (fun i => c * open_ j i)) = c * M). { intros c. exact (over_scal B N c (block_manual pr sr a L)). }
  assert (Sum1 : Rsum N (fun j => Rsum N (fun i => Cmod (Cminus (at2 S64 j i) (at2 S0 j i)))) <= 2 * fe * Rabs i_amp * M).
  { rewrite <- Sc. apply Rsum_le. intros j Hj. apply Rsum_le. intros i Hi. destruct (A j i Hj Hi) as [-> ->]. apply HE; assumption. }
  assert (Sum0 : Rsum N (fun j => Rsum N (fun i => Cmod (at2 S0 j i))) <= Rabs i_amp * M). { rewrite <- Sc. apply Rsum_le. intros j Hj. apply Rsum_le. intros i Hi. destruct (A j i Hj Hi) as [-> _]. apply HE; assumption. }
  assert (Sum64 : Rsum N (fun j => Rsum N (fun i => Cmod (at2 S64 j i))) <= 11 / 10 * (Rabs i_amp * M)).
  { replace (11 / 10 * (Rabs i_amp * M)) with (11 / 10 * Rabs i_amp * M) by ring. rewrite <- Sc. apply Rsum_le. intros j Hj. apply Rsum_le. intros i Hi. destruct (A j i Hj Hi) as [_ ->]. destruct (HE i j Hi Hj) as [H1 H2].
    replace (E64 (x64 i) (x64 j)) with (Cplus (Cminus (E64 (x64 i) (x64 j)) (E (sample B N i) (sample B N j))) (E (sample B N i) (sample B N j))) by (unfold Cminus; ring). eapply Rle_trans; [apply Cmod_triangle|].
    assert (0 <= Rabs i_amp * open_ j i) by (apply Rmult_le_pos; [exact Ai|apply Op]). assert (2 * fe * (Rabs i_amp * open_ j i) <= 2 * / 1000 * (Rabs i_amp * open_ j i)) by (apply Rmult_le_compat_r; lra). lra. }
  assert (M0 : 0 <= Rabs i_amp * M). { eapply Rle_trans; [|exact Sum0]. apply Rsum_nonneg. intros j _. apply Rsum_nonneg. intros i _. apply Cmod_ge_0. }
  intros j i Hj Hi. rewrite !(fftshift2_at _ N N) by assumption. pose proof (shift_idx_lt N j Hj) as Hj'. pose proof (shift_idx_lt N i Hi) as Hi'. set (j' := shift_idx N j) in *. set (i' := shift_idx N i) in *. split.
  - replace (Cminus (at2 (m_fft m S64) j' i') (at2 (fft2 S0) j' i')) with (Cplus (Cminus (at2 (m_fft m S64) j' i') (at2 (fft2 S64) j' i')) (Cminus (at2 (fft2 S64) j' i') (at2 (fft2 S0) j' i'))) by (unfold Cminus; ring).
    eapply Rle_trans; [apply Cmod_triangle|]. pose proof (FE j' i' Hj' Hi') as Q1. pose proof (fft_diff S64 S0 j' i' N2 R1 R0 Hj' Hi') as Q2. assert (ef * Rsum N (fun b => Rsum N (fun a0 => Cmod (at2 S64 b a0))) <= ef * (11 / 10 * (Rabs i_amp * M))) by (apply Rmult_le_compat_l; lra).
    assert (0 <= ef * (Rabs i_amp * M)) by (apply Rmult_le_pos; lra). lra.
  - eapply Rle_trans; [apply fft_bound; assumption|]. exact Sum0.
Qed.

(** ** The power *)
Lemma power64_at m' G r c : rectC N N G -> (r < N)%nat -> (c < N)%nat -> nth c (nth r (power_pattern64 m' G) []) 0 = square64 (m_abs m' (at2 G r c)).
Proof.
  intros [LG RG] Hr Hc0. unfold power_pattern64, map2d, at2. rewrite nth_indep with (d' := map (fun z => square64 (m_abs m' z)) []) by (rewrite map_length; lia). rewrite (map_nth (map (fun z => square64 (m_abs m' z)))).
  rewrite nth_indep with (d' := (fun z => square64 (m_abs m' z)) (RtoC 0)) by (rewrite map_length, RG; [lia|apply nth_In; lia]). rewrite (map_nth (fun z => square64 (m_abs m' z))). reflexivity.
Qed.
Lemma abs_square z z64 S D : / 2 ^ 100 <= S -> Cmod z <= S -> Cmod (Cminus z64 z) <= D * S -> 700 * e <= D -> D <= 4 / 1000 -> Rabs (square64 (m_abs m z64) - Cmod z ^ 2) <= 22 / 10 * D * S ^ 2.
Proof.
  intros HS Hz Hzz HD D4. pose proof (e_pos e Ue) as Ep. pose proof tiny_pos as Tp. destruct small_300 as [T3 _]. assert (P0 : 0 < / 2 ^ 100) by (apply Rinv_0_lt_compat, pow_lt; lra). destruct Hm as (_ & _ & _ & _ & HA).
  assert (TS : tiny <= S) by (apply Rle_trans with (/ 2 ^ 100); lra). assert (TSS : tiny <= S * S). { apply Rle_trans with (/ 2 ^ 100 * / 2 ^ 100); [|apply Rmult_le_compat; lra]. eapply Rle_trans; [exact T3|]. rewrite <- Rinv_mult, <- pow_add. apply Rinv_le_contravar; [apply pow_lt; lra|apply Rle_pow; [lra|lia]]. }
  pose proof (HA z64) as Q. pose proof (Cmod_ge_0 z) as Z0. set (s := m_abs m z64) in *.
  assert (Ez : Rabs (Cmod z64 - Cmod z) <= D * S). { apply Rabs_le. pose proof (Cmod_triangle (Cminus z64 z) z) as T1. replace (Cplus (Cminus z64 z) z) with z64 in T1 by (unfold Cminus; ring). pose proof (Cmod_triangle (Copp (Cminus z64 z)) z64) as T2. replace (Cplus (Copp (Cminus z64 z)) z64) with z in T2 by (unfold Cminus; ring). rewrite Cmod_opp in T2. lra. }
  apply Rabs_le_iff in Ez as Ez'. assert (DS : 0 <= D * S <= 4 / 1000 * S) by (split; [apply Rmult_le_pos; lra|apply Rmult_le_compat_r; lra]).
  assert (E1' : Rabs (s - Cmod z) <= 101 / 100 * (D * S)).
  { replace (s - Cmod z) with ((s - Cmod z64) + (Cmod z64 - Cmod z)) by ring. eapply Rle_trans; [apply Rabs_triang|]. assert (e * (Cmod z64 + tiny) <= e * (3 * S)) by (apply Rmult_le_compat_l; lra). assert (700 * e * S <= D * S) by (apply Rmult_le_compat_r; lra). lra. }
  set (c := Cmod z) in *. apply Rabs_le_iff in E1' as E2.
  assert (Sq : Rabs (s * s - c ^ 2) <= 101 / 100 * (D * S) * (2005 / 1000 * S)). { replace (s * s - c ^ 2) with ((s - c) * (s + c)) by ring. rewrite Rabs_mult. apply Rmult_le_compat; try apply Rabs_pos; [exact E1'|]. apply Rabs_le. lra. }
  pose proof (fl_err e (s * s) Ue) as F0. fold (square64 s) in F0. assert (Sm : Rabs s <= 11 / 10 * S) by (apply Rabs_le; lra). assert (Rabs (s * s) <= 11 / 10 * S * (11 / 10 * S)) by (rewrite Rabs_mult; apply Rmult_le_compat; try apply Rabs_pos; exact Sm).
  assert (SS : 0 < S * S) by nra. assert (e * (Rabs (s * s) + tiny / 100) <= e * (3 * (S * S))) by (apply Rmult_le_compat_l; lra). assert (700 * e * (S * S) <= D * (S * S)) by (apply Rmult_le_compat_r; lra).
  replace (square64 s - c ^ 2) with ((square64 s - s * s) + (s * s - c ^ 2)) by ring. eapply Rle_trans; [apply Rabs_triang|]. replace (22 / 10 * D * S ^ 2) with (22 / 10 * (D * (S * S))) by ring. replace (101 / 100 * (D * S) * (2005 / 1000 * S)) with (101 / 100 * (2005 / 1000) * (D * (S * S))) in Sq by ring.
  assert (0 <= D * (S * S)) by (apply Rmult_le_pos; lra). lra.
Qed.
Lemma power_err : 1 <= M -> exists ua va F0 ua64 va64 F64, radiation_pattern illum_parabolic tel Ic K d_z wavel N bf = Ok (ua, va, F0) /\ radiation_pattern64 m (illum_parabolic64 m) tel64 Ic K d_z wavel N bf = Ok (ua64, va64, F64) /\
  forall j i, (j < N)%nat -> (i < N)%nat -> Rabs (nth i (nth j (power_pattern64 m F64) []) 0 - nth i (nth j (power_pattern F0) []) 0) <= 5 * (fe + ef) * (Rabs i_amp * M) ^ 2 /\ 0 <= nth i (nth j (power_pattern F0) []) 0 <= (Rabs i_amp * M) ^ 2.
Proof.
  intros HM. destruct pattern_err as (ua & va & F0 & ua64 & va64 & F64 & R0 & R1 & _ & _ & RF & RF64 & HE). exists ua, va, F0, ua64, va64, F64. split; [exact R0|]. split; [exact R1|]. intros j i Hj Hi. rewrite power64_at by assumption. rewrite (power_at F0 j i N) by (first [assumption|apply RF]).
  destruct (HE j i Hj Hi) as [Q1 Q2]. set (S := Rabs i_amp * M) in *. assert (P0 : 0 < / 2 ^ 100) by (apply Rinv_0_lt_compat, pow_lt; lra). assert (HS : / 2 ^ 100 <= S) by (unfold S; nra).
  assert (D1 : 700 * e <= 2 * (fe + ef)).
  { destruct Hd as (_ & Hbf & _ & _ & _ & _ & _ & _ & _ & _ & _ & Hw). assert (De : 0 <= 2 * Rabs d_z / wavel). { apply Rmult_le_pos; [pose proof (Rabs_pos d_z); lra|left; apply Rinv_0_lt_compat; lra]. }
    assert (L1 : (1 <= length K)%nat) by nia. destruct (size_tiny K L1) as [S1 S2]. pose proof tiny_pos. assert (Ht : 0 <= turns K d_z wavel) by (unfold turns; fold (size K); lra). destruct (field_loss_le n bf q (turns K d_z wavel) Hbf Hq Ht) as (_ & _ & F3 & _). pose proof (e_pos e Ue). assert (370 * e <= fe) by (unfold fe; apply Rmult_le_compat_r; lra). lra. }
  split.
  - eapply Rle_trans; [apply (abs_square _ _ S (2 * (fe + ef)) HS Q2 Q1 D1); lra|]. pose proof (e_pos e Ue). assert (0 <= (fe + ef) * S ^ 2) by (apply Rmult_le_pos; [lra|apply pow2_ge_0]). lra.
  - pose proof (Cmod_ge_0 (at2 F0 j i)). split; [apply pow2_ge_0|]. apply pow_incr. lra.
Qed.
End Setting.

(** ** Exceptions *)
Lemma alike_pattern m pr sr a L Fp F Ic K d_z wavel N bf er : (8 * Z.of_nat (length K) + 1 < 2 ^ 53)%Z ->
  (radiation_pattern illum_parabolic (manual pr sr a L Fp F) Ic K d_z wavel N bf = Err er <-> radiation_pattern64 m (illum_parabolic64 m) (manual64 pr sr a L Fp F) Ic K d_z wavel N bf = Err er).
Proof.
  intros H53. destruct (le_lt_dec 2 N) as [N2|N2].
  - rewrite rad_unfold, rad64_unfold by exact N2. cbv zeta. unfold aperture, aperture64. pose proof (alike_W (m_lm m) K H53) as A.
    destruct (wavefront K) as [W|ee] eqn:EW; destruct (wavefront64 (m_lm m) K) as [W64|ee'] eqn:EW64; cbn [bind].
    + assert (I : (exists v, illum_parabolic Ic pr = Ok v) /\ (exists v, illum_parabolic64 m Ic pr = Ok v) \/ illum_parabolic Ic pr = Err ValueError /\ illum_parabolic64 m Ic pr = Err ValueError).
      { unfold illum_parabolic, illum_parabolic64. destruct Ic as [|? [|? [|? [|? [|? [|? ?]]]]]]; try (right; split; reflexivity). left. split; eexists; reflexivity. }
      cbn [manual manual64 tel_pr]. destruct I as [[[v ->] [v' ->]]|[-> ->]]; cbn [bind]; split; intros X; congruence.
    + exfalso. destruct (A ee') as [_ A2]. specialize (A2 eq_refl). discriminate.
    + exfalso. destruct (A ee) as [A1 _]. specialize (A1 eq_refl). discriminate.
    + destruct (A ee) as [A1 _]. specialize (A1 eq_refl). split; intros X; congruence.
  - rewrite rad_small by exact N2. unfold radiation_pattern64. cbv zeta. unfold py_get. destruct N as [|[|N']]; [| |lia]; cbn [seq map nth_error bind]; reflexivity.
Qed.
