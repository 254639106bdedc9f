(** C120: rounding errors of the Effelsberg telescope. *)
From Coq Require Import Reals ZArith List Lia Lra.
From Verif Require Import PyBase Num MMath MAperture MTel MRad SFloat MFloat MFloat2 MFloat3 MFloat4 MFloat8 SRad SGain SRound SRound2 SRound3 SRound7 PRound14 PRound27.
From Coquelicot Require Import Complex.
Import ListNotations.
Open Scope R_scope.

(** C120. At every point of the grid that is clear of the edges of dish, subreflector, legs and shades, the mask computed in
    binary64 at the point that binary64 computes is the exact mask at the exact point. *)
Theorem C120_mask e alpha C D bf mcsc2 mtan N : unit_roundoff <= e -> accurate_slopes e mcsc2 mtan alpha -> 1 <= bf -> 50 * bf <= 2 ^ 100 -> bf * e <= / 100000 ->
  INR N <= 2 ^ 40 -> (2 <= N)%nat -> 0 < alpha <= PI / 4 -> / 1000 <= sin alpha -> far_corner alpha C D ->
  let B := 50 * bf in let x64 i := linspace64 (- fl B) (fl B) N i in
  forall i j, (i < N)%nat -> (j < N)%nat -> clear_effelsberg (800 * e) B C D (sample B N i) (sample B N j) ->
    block_effelsberg64 mcsc2 mtan alpha (x64 i) (x64 j) = block_effelsberg alpha (sample B N i) (sample B N j).
Proof. exact (mask_eff e alpha C D bf mcsc2 mtan N). Qed.
Print Assumptions C120_mask.

(** The path difference in wavelengths at a point of the dish, with coordinates that are off by at most 50 h e. *)
Theorem C120_path e h x y x64 y64 d_z wavel : unit_roundoff <= e -> e <= / 1000 -> 1 <= h -> h * e <= / 2000 ->
  Rabs (x64 - x) <= h * e * 50 -> Rabs (y64 - y) <= h * e * 50 -> x ^ 2 + y ^ 2 <= 50 ^ 2 -> d_z = 0 \/ / 2 ^ 100 <= Rabs d_z -> / 2 ^ 100 <= wavel <= 2 ^ 100 ->
  Rabs (fl (opd_effelsberg64 x64 y64 d_z / wavel) - opd_effelsberg x y d_z / wavel) <= (12 * h + 72) * e * (2 * Rabs d_z / wavel).
Proof. exact (fun a b c d f g i j k => proj1 (opd_eff_near e h x y x64 y64 d_z wavel a b c d f g i j k)). Qed.
Print Assumptions C120_path.

(** The aperture field is within 2 field_loss e of the exact one, relative to the amplitude; at the points that the mask covers
    both are zero. *)
Theorem C120_field e alpha C D m mcsc2 mtan n K bf wavel d_z i_amp c_dB q x0 y0 N : unit_roundoff <= e -> accurate_maths e m -> accurate_slopes e mcsc2 mtan alpha ->
  reach_effelsberg e alpha C D n K bf wavel d_z i_amp c_dB q x0 y0 N ->
  let B := 50 * bf in
  let x64 i := linspace64 (- fl B) (fl B) N i in
  exists E E64, aperture illum_parabolic (eff alpha) [i_amp; c_dB; q; x0; y0] K d_z wavel = Ok E /\
    aperture64 m (illum_parabolic64 m) (eff64 mcsc2 mtan alpha) [i_amp; c_dB; q; x0; y0] K d_z wavel = Ok E64 /\
    forall i j, (i < N)%nat -> (j < N)%nat ->
      Cmod (Cminus (E64 (x64 i) (x64 j)) (E (sample B N i) (sample B N j))) <=
      2 * (field_loss n bf q (turns K d_z wavel) * e) * Rabs i_amp * block_effelsberg alpha (sample B N i) (sample B N j).
Proof. exact (eff_field e alpha C D m mcsc2 mtan n K bf wavel d_z i_amp c_dB q x0 y0 N). Qed.
Print Assumptions C120_field.

(** The radiation pattern is within 2 (field_loss e + ef), relative to the amplitude times the number of points that are not
    blocked; the axes are within N 2^-49. *)
Theorem C120_pattern e ef alpha C D m mcsc2 mtan n K bf wavel d_z i_amp c_dB q x0 y0 N : unit_roundoff <= e -> accurate_maths e m -> accurate_slopes e mcsc2 mtan alpha ->
  reach_effelsberg e alpha C D n K bf wavel d_z i_amp c_dB q x0 y0 N -> accurate_fft ef (m_fft m) -> 0 <= ef <= / 1000 ->
  exists ua va F0 ua64 va64 F64,
    radiation_pattern illum_parabolic (eff alpha) [i_amp; c_dB; q; x0; y0] K d_z wavel N bf = Ok (ua, va, F0) /\
    radiation_pattern64 m (illum_parabolic64 m) (eff64 mcsc2 mtan alpha) [i_amp; c_dB; q; x0; y0] K d_z wavel N bf = Ok (ua64, va64, F64) /\
    length ua64 = N /\ va64 = ua64 /\ length F64 = N /\
    (forall i, (i < N)%nat -> Rabs (nth i ua64 0 - nth i ua 0) <= INR N * / 2 ^ 49 * Rabs (nth i ua 0)) /\
    forall j i, (j < N)%nat -> (i < N)%nat -> length (nth j F64 []) = N /\
      Cmod (Cminus (at2 F64 j i) (at2 F0 j i)) <=
      2 * (field_loss n bf q (turns K d_z wavel) * e + ef) * (Rabs i_amp * over_samples (50 * bf) N (block_effelsberg alpha)).
Proof. exact (eff_pattern e ef alpha C D m mcsc2 mtan n K bf wavel d_z i_amp c_dB q x0 y0 N). Qed.
Print Assumptions C120_pattern.

(** The power pattern is within 5 (field_loss e + ef), relative to the largest power such an aperture can give. *)
Theorem C120_power e ef alpha C D m mcsc2 mtan n K bf wavel d_z i_amp c_dB q x0 y0 N : unit_roundoff <= e -> accurate_maths e m -> accurate_slopes e mcsc2 mtan alpha ->
  reach_effelsberg e alpha C D n K bf wavel d_z i_amp c_dB q x0 y0 N -> accurate_fft ef (m_fft m) -> 0 <= ef <= / 1000 ->
  (exists i j, (i < N)%nat /\ (j < N)%nat /\ block_effelsberg alpha (sample (50 * bf) N i) (sample (50 * bf) N j) <> 0) ->
  exists ua va F0 ua64 va64 F64,
    radiation_pattern illum_parabolic (eff alpha) [i_amp; c_dB; q; x0; y0] K d_z wavel N bf = Ok (ua, va, F0) /\
    radiation_pattern64 m (illum_parabolic64 m) (eff64 mcsc2 mtan alpha) [i_amp; c_dB; q; x0; y0] K d_z wavel N bf = Ok (ua64, va64, F64) /\
    let top := (Rabs i_amp * over_samples (50 * bf) N (block_effelsberg alpha)) ^ 2 in
    forall j i, (j < N)%nat -> (i < N)%nat ->
      Rabs (nth i (nth j (power_pattern64 m F64) []) 0 - nth i (nth j (power_pattern F0) []) 0) <= 5 * (field_loss n bf q (turns K d_z wavel) * e + ef) * top /\
      0 <= nth i (nth j (power_pattern F0) []) 0 <= top.
Proof. exact (eff_power e ef alpha C D m mcsc2 mtan n K bf wavel d_z i_amp c_dB q x0 y0 N). Qed.
Print Assumptions C120_power.

(** The computation raises an exception where the exact model does, and the same. *)
Theorem C120_exceptions m mcsc2 mtan alpha I K d_z wavel N bf er : (8 * Z.of_nat (length K) + 1 < 2 ^ 53)%Z ->
  (radiation_pattern illum_parabolic (eff alpha) I K d_z wavel N bf = Err er <->
   radiation_pattern64 m (illum_parabolic64 m) (eff64 mcsc2 mtan alpha) I K d_z wavel N bf = Err er).
Proof. exact (eff_alike m mcsc2 mtan alpha I K d_z wavel N bf er). Qed.
Print Assumptions C120_exceptions.

(** Leg angle 30 degrees, 16 points on 1.2 times the dish, order 2, wavelength 9 mm, radial offset 22 mm, a library that rounds
    correctly: one point of the grid is open, another is covered by a shade only. *)
Example C120_nonvacuous : unit_roundoff <= / 2 ^ 52 /\ accurate_maths (/ 2 ^ 52) rounding_maths /\ accurate_fft (/ 2 ^ 40) (m_fft rounding_maths) /\
  accurate_slopes (/ 2 ^ 52) rounded_csc2 rounded_tan (PI / 6) /\
  reach_effelsberg (/ 2 ^ 52) (PI / 6) corner_C corner_D 2 dish_K (6 / 5) (9 / 1000) (22 / 1000) 2 (-12) 2 0 0 16 /\
  block_effelsberg (PI / 6) (sample (50 * (6 / 5)) 16 9) (sample (50 * (6 / 5)) 16 9) <> 0 /\
  block_effelsberg (PI / 6) (sample (50 * (6 / 5)) 16 12) (sample (50 * (6 / 5)) 16 9) = 0 /\
  block_manual 50 (13 / 4) 1 20 (sample (50 * (6 / 5)) 16 12) (sample (50 * (6 / 5)) 16 9) = 1.
Proof.
  split; [exact u_52|]. split; [exact rounding_accurate|]. split; [apply fft2_exact; left; apply Rinv_0_lt_compat, pow_lt; lra|].
  split; [exact rounded_slopes|]. split; [exact eff_reach|]. split; [exact twelve_open|]. exact shade_closed.
Qed.
