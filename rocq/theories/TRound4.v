(** C113: rounding errors of the aperture field and of the radiation pattern. *)
From Coq Require Import Reals ZArith List Lia Lra.
From Verif Require Import PyBase Num MMath MAperture MTel MRad SFloat MFloat MFloat2 MFloat3 MFloat4 SRad SGain SRound SRound2 SRound3 PRound13 PRound14.
From Coquelicot Require Import Complex.
Import ListNotations.
Open Scope R_scope.

(** C113. At every point of the grid that binary64 computes, the aperture field in binary64 is within 2 field_loss e of the
    exact one at the exact point, relative to the amplitude; at the points that the blockage covers both are zero. *)
Theorem C113_field e m n K pr sr a L Fp F bf wavel d_z i_amp c_dB q x0 y0 N : unit_roundoff <= e -> accurate_maths e m ->
  within_reach e n K pr sr a L Fp F bf wavel d_z i_amp c_dB q x0 y0 N ->
  let B := pr * bf in
  let x64 i := linspace64 (- fl B) (fl B) N i in
  exists E E64, aperture illum_parabolic (manual pr sr a L Fp F) [i_amp; c_dB; q; x0; y0] K d_z wavel = Ok E /\
    aperture64 m (illum_parabolic64 m) (manual64 pr sr a L Fp F) [i_amp; c_dB; q; x0; y0] K d_z wavel = Ok E64 /\
    forall i j, (i < N)%nat -> (j < N)%nat ->
      Cmod (Cminus (E64 (x64 i) (x64 j)) (E (sample B N i) (sample B N j))) <=
      2 * (field_loss n bf q (turns K d_z wavel) * e) * Rabs i_amp * block_manual pr sr a L (sample B N i) (sample B N j).
Proof. exact (field_api e m n K pr sr a L Fp F bf wavel d_z i_amp c_dB q x0 y0 N). Qed.
Print Assumptions C113_field.

(** With a Fourier transform accurate to ef, every entry of the radiation pattern is within 2 (field_loss e + ef) of the exact one,
    relative to the amplitude times the number of points that are not blocked (the largest value it can have); the axes are
    within N 2^-49. *)
Theorem C113_pattern e ef m n K pr sr a L Fp F bf wavel d_z i_amp c_dB q x0 y0 N : unit_roundoff <= e -> accurate_maths e m ->
  within_reach e n K pr sr a L Fp F bf wavel d_z i_amp c_dB q x0 y0 N -> accurate_fft ef (m_fft m) -> 0 <= ef <= / 1000 ->
  exists ua va F0 ua64 va64 F64,
    radiation_pattern illum_parabolic (manual pr sr a L Fp F) [i_amp; c_dB; q; x0; y0] K d_z wavel N bf = Ok (ua, va, F0) /\
    radiation_pattern64 m (illum_parabolic64 m) (manual64 pr sr a L Fp F) [i_amp; c_dB; q; x0; y0] K d_z wavel N bf = Ok (ua64, va64, F64) /\
    length ua64 = N /\ va64 = ua64 /\ length F64 = N /\
    (forall i, (i < N)%nat -> Rabs (nth i ua64 0 - nth i ua 0) <= INR N * / 2 ^ 49 * Rabs (nth i ua 0)) /\
    forall j i, (j < N)%nat -> (i < N)%nat -> length (nth j F64 []) = N /\
      Cmod (Cminus (at2 F64 j i) (at2 F0 j i)) <=
      2 * (field_loss n bf q (turns K d_z wavel) * e + ef) * (Rabs i_amp * over_samples (pr * bf) N (block_manual pr sr a L)).
Proof. exact (pattern_api e ef m n K pr sr a L Fp F bf wavel d_z i_amp c_dB q x0 y0 N). Qed.
Print Assumptions C113_pattern.

(** The power pattern is within 5 (field_loss e + ef), relative to the largest power such an aperture can give. *)
Theorem C113_power e ef m n K pr sr a L Fp F bf wavel d_z i_amp c_dB q x0 y0 N : unit_roundoff <= e -> accurate_maths e m ->
  within_reach e n K pr sr a L Fp F bf wavel d_z i_amp c_dB q x0 y0 N -> accurate_fft ef (m_fft m) -> 0 <= ef <= / 1000 ->
  (exists i j, (i < N)%nat /\ (j < N)%nat /\ block_manual pr sr a L (sample (pr * bf) N i) (sample (pr * bf) N j) <> 0) ->
  exists ua va F0 ua64 va64 F64,
    radiation_pattern illum_parabolic (manual pr sr a L Fp F) [i_amp; c_dB; q; x0; y0] K d_z wavel N bf = Ok (ua, va, F0) /\
    radiation_pattern64 m (illum_parabolic64 m) (manual64 pr sr a L Fp F) [i_amp; c_dB; q; x0; y0] K d_z wavel N bf = Ok (ua64, va64, F64) /\
    let top := (Rabs i_amp * over_samples (pr * bf) N (block_manual pr sr a L)) ^ 2 in
    forall j i, (j < N)%nat -> (i < N)%nat ->
      Rabs (nth i (nth j (power_pattern64 m F64) []) 0 - nth i (nth j (power_pattern F0) []) 0) <= 5 * (field_loss n bf q (turns K d_z wavel) * e + ef) * top /\
      0 <= nth i (nth j (power_pattern F0) []) 0 <= top.
Proof. exact (power_api e ef m n K pr sr a L Fp F bf wavel d_z i_amp c_dB q x0 y0 N). Qed.
Print Assumptions C113_power.

(** The computation raises an exception where the exact model does, and the same. *)
Theorem C113_exceptions m pr sr a L Fp F I K d_z wavel N bf er : (8 * Z.of_nat (length K) + 1 < 2 ^ 53)%Z ->
  (radiation_pattern illum_parabolic (manual pr sr a L Fp F) I K d_z wavel N bf = Err er <->
   radiation_pattern64 m (illum_parabolic64 m) (manual64 pr sr a L Fp F) I K d_z wavel N bf = Err er).
Proof. exact (alike_pattern m pr sr a L Fp F I K d_z wavel N bf er). Qed.
Print Assumptions C113_exceptions.

(** The dish of the manual telescope with radius 50 m, subreflector 3 m and legs, order 2, 256 points on 5 times its size, wavelength
    9 mm, radial offset 22 mm; a library that rounds correctly. *)
Example C113_nonvacuous : unit_roundoff <= / 2 ^ 52 /\ accurate_maths (/ 2 ^ 52) rounding_maths /\ accurate_fft (/ 2 ^ 40) (m_fft rounding_maths) /\ 0 <= / 2 ^ 40 <= / 1000 /\
  within_reach (/ 2 ^ 52) 2 dish_K 50 3 1 20 30 300 5 (9 / 1000) (22 / 1000) 2 (-12) 2 0 0 256 /\
  (exists i j, (i < 256)%nat /\ (j < 256)%nat /\ block_manual 50 3 1 20 (sample (50 * 5) 256 i) (sample (50 * 5) 256 j) <> 0) /\
  radiation_pattern illum_parabolic (manual 50 3 1 20 30 300) [2] dish_K 0 1 256 5 = Err ValueError.
Proof.
  split; [exact u_52|]. split; [exact rounding_accurate|]. assert (P : 0 <= / 2 ^ 40 <= / 1000). { split; [left; apply Rinv_0_lt_compat, pow_lt; lra|]. apply Rinv_le_contravar; [lra|]. apply Rle_trans with (2 ^ 10); [lra|apply Rle_pow; [lra|lia]]. }
  split; [apply fft2_exact, P|]. split; [exact P|]. split; [exact dish_reach|]. split; [exists 135%nat, 135%nat; split; [lia|]; split; [lia|]; exact dish_open|]. exact dish_short.
Qed.
