(** C119: rounding errors with a gaussian illumination. *)
From Coq Require Import Reals ZArith List Lia Lra.
From Verif Require Import PyBase Num MMath MAperture MTel MRad SFloat MFloat MFloat2 MFloat3 MFloat4 MFloat7 SRad SGain SRound SRound2 SRound3 SRound6 PRound13 PRound14 PRound22 PRound24.
From Coquelicot Require Import Complex.
Import ListNotations.
Open Scope R_scope.

(** C119. The gaussian illumination in binary64 is within 320 e / taper^2 of the exact one, relative to its largest value, at every
    point no further from its centre than twice the radius of the dish.  [I] is any list that starts with the amplitude and the taper
    and ends with the centre: the four numbers of the documentation or the five that the fit passes. *)
Theorem C119_illumination e m mexp msq (I : list R) i_amp c_dB x0 y0 pr x y :
  unit_roundoff <= e -> accurate_maths e m -> accurate_gauss e mexp msq ->
  I = [i_amp; c_dB; x0; y0] \/ (exists q, I = [i_amp; c_dB; q; x0; y0]) ->
  / 2 ^ 100 <= pr -> -100 <= c_dB <= 0 -> / 2 ^ 100 <= gauss_peak i_amp c_dB -> e <= taper c_dB ^ 2 / 20000 ->
  Rabs (x - x0) <= 2 * pr -> Rabs (y - y0) <= 2 * pr ->
  exists Ea Ea64, illum_gauss I pr = Ok Ea /\ illum_gauss64 m mexp msq I pr = Ok Ea64 /\
    Rabs (Ea64 x y - Ea x y) <= 320 / taper c_dB ^ 2 * e * gauss_peak i_amp c_dB /\ Rabs (Ea x y) <= gauss_peak i_amp c_dB.
Proof. intros Ue Hm Hg HI. apply illum_api; try assumption; destruct HI as [->|[q ->]]; reflexivity. Qed.
Print Assumptions C119_illumination.

(** At every point of the grid that binary64 computes, the aperture field is within 2 gauss_loss e of the exact one at the exact point,
    relative to the largest value of the illumination; at the points that the blockage covers both are zero. *)
Theorem C119_field e m mexp msq n K pr sr a L Fp F bf wavel d_z i_amp c_dB x0 y0 N I : unit_roundoff <= e -> accurate_maths e m -> accurate_gauss e mexp msq ->
  I = [i_amp; c_dB; x0; y0] \/ (exists q, I = [i_amp; c_dB; q; x0; y0]) ->
  gauss_reach e n K pr sr a L Fp F bf wavel d_z i_amp c_dB x0 y0 N ->
  let B := pr * bf in
  let x64 i := linspace64 (- fl B) (fl B) N i in
  exists E E64, aperture illum_gauss (manual pr sr a L Fp F) I K d_z wavel = Ok E /\
    aperture64 m (illum_gauss64 m mexp msq) (manual64 pr sr a L Fp F) I K d_z wavel = Ok E64 /\
    forall i j, (i < N)%nat -> (j < N)%nat ->
      Cmod (Cminus (E64 (x64 i) (x64 j)) (E (sample B N i) (sample B N j))) <=
      2 * (gauss_loss n bf c_dB (turns K d_z wavel) * e) * gauss_peak i_amp c_dB * block_manual pr sr a L (sample B N i) (sample B N j).
Proof. intros Ue Hm Hg HI Hw. apply (gauss_field_api e m mexp msq n K pr sr a L Fp F bf wavel d_z i_amp c_dB x0 y0 N I); try assumption; destruct HI as [->|[q ->]]; reflexivity. Qed.
Print Assumptions C119_field.

(** The radiation pattern and its axes, as in C113. *)
Theorem C119_pattern e ef m mexp msq n K pr sr a L Fp F bf wavel d_z i_amp c_dB x0 y0 N I : unit_roundoff <= e -> accurate_maths e m -> accurate_gauss e mexp msq ->
  I = [i_amp; c_dB; x0; y0] \/ (exists q, I = [i_amp; c_dB; q; x0; y0]) ->
  gauss_reach e n K pr sr a L Fp F bf wavel d_z i_amp c_dB x0 y0 N -> accurate_fft ef (m_fft m) -> 0 <= ef <= / 1000 ->
  exists ua va F0 ua64 va64 F64,
    radiation_pattern illum_gauss (manual pr sr a L Fp F) I K d_z wavel N bf = Ok (ua, va, F0) /\
    radiation_pattern64 m (illum_gauss64 m mexp msq) (manual64 pr sr a L Fp F) I K d_z wavel N bf = Ok (ua64, va64, F64) /\
    length ua64 = N /\ va64 = ua64 /\ length F64 = N /\
    (forall i, (i < N)%nat -> Rabs (nth i ua64 0 - nth i ua 0) <= INR N * / 2 ^ 49 * Rabs (nth i ua 0)) /\
    forall j i, (j < N)%nat -> (i < N)%nat -> length (nth j F64 []) = N /\
      Cmod (Cminus (at2 F64 j i) (at2 F0 j i)) <=
      2 * (gauss_loss n bf c_dB (turns K d_z wavel) * e + ef) * (gauss_peak i_amp c_dB * over_samples (pr * bf) N (block_manual pr sr a L)).
Proof. intros Ue Hm Hg HI Hw Hf He. apply (gauss_pattern_api e ef m mexp msq n K pr sr a L Fp F bf wavel d_z i_amp c_dB x0 y0 N I); try assumption; destruct HI as [->|[q ->]]; reflexivity. Qed.
Print Assumptions C119_pattern.

(** The power pattern, relative to the largest power such an aperture can give. *)
Theorem C119_power e ef m mexp msq n K pr sr a L Fp F bf wavel d_z i_amp c_dB x0 y0 N I : unit_roundoff <= e -> accurate_maths e m -> accurate_gauss e mexp msq ->
  I = [i_amp; c_dB; x0; y0] \/ (exists q, I = [i_amp; c_dB; q; x0; y0]) ->
  gauss_reach e n K pr sr a L Fp F bf wavel d_z i_amp c_dB x0 y0 N -> accurate_fft ef (m_fft m) -> 0 <= ef <= / 1000 ->
  (exists i j, (i < N)%nat /\ (j < N)%nat /\ block_manual pr sr a L (sample (pr * bf) N i) (sample (pr * bf) N j) <> 0) ->
  exists ua va F0 ua64 va64 F64,
    radiation_pattern illum_gauss (manual pr sr a L Fp F) I K d_z wavel N bf = Ok (ua, va, F0) /\
    radiation_pattern64 m (illum_gauss64 m mexp msq) (manual64 pr sr a L Fp F) I K d_z wavel N bf = Ok (ua64, va64, F64) /\
    let top := (gauss_peak i_amp c_dB * over_samples (pr * bf) N (block_manual pr sr a L)) ^ 2 in
    forall j i, (j < N)%nat -> (i < N)%nat ->
      Rabs (nth i (nth j (power_pattern64 m F64) []) 0 - nth i (nth j (power_pattern F0) []) 0) <= 5 * (gauss_loss n bf c_dB (turns K d_z wavel) * e + ef) * top /\
      0 <= nth i (nth j (power_pattern F0) []) 0 <= top.
Proof. intros Ue Hm Hg HI Hw Hf He Ho. apply (gauss_power_api e ef m mexp msq n K pr sr a L Fp F bf wavel d_z i_amp c_dB x0 y0 N I); try assumption; destruct HI as [->|[q ->]]; reflexivity. Qed.
Print Assumptions C119_power.

(** The computation raises an exception where the exact model does, and the same. *)
Theorem C119_exceptions m mexp msq pr sr a L Fp F I K d_z wavel N bf er : (8 * Z.of_nat (length K) + 1 < 2 ^ 53)%Z ->
  (radiation_pattern illum_gauss (manual pr sr a L Fp F) I K d_z wavel N bf = Err er <->
   radiation_pattern64 m (illum_gauss64 m mexp msq) (manual64 pr sr a L Fp F) I K d_z wavel N bf = Err er).
Proof. exact (gauss_alike m mexp msq pr sr a L Fp F I K d_z wavel N bf er). Qed.
Print Assumptions C119_exceptions.

(** The dish of C113_nonvacuous with a taper of -20 dB centred 3 m beside its axis; a library that rounds correctly. *)
Example C119_nonvacuous : unit_roundoff <= / 2 ^ 52 /\ accurate_maths (/ 2 ^ 52) rounding_maths /\ accurate_gauss (/ 2 ^ 52) (fun x => fl (exp x)) (fun x => fl (x ^ 2)) /\
  accurate_fft (/ 2 ^ 40) (m_fft rounding_maths) /\ 0 <= / 2 ^ 40 <= / 1000 /\ / 2 ^ 52 <= taper (-20) ^ 2 / 20000 /\
  gauss_reach (/ 2 ^ 52) 2 dish_K 50 3 1 20 30 300 5 (9 / 1000) (22 / 1000) 2 (-20) 3 0 256 /\
  (exists i j, (i < 256)%nat /\ (j < 256)%nat /\ block_manual 50 3 1 20 (sample (50 * 5) 256 i) (sample (50 * 5) 256 j) <> 0).
Proof.
  split; [exact u_52|]. split; [exact rounding_accurate|]. split; [exact rounded_gauss|]. assert (P : 0 <= / 2 ^ 40 <= / 1000). { split; [left; apply Rinv_0_lt_compat, pow_lt; lra|]. apply Rinv_le_contravar; [lra|]. apply Rle_trans with (2 ^ 10); [lra|apply Rle_pow; [lra|lia]]. }
  split; [apply fft2_exact, P|]. split; [exact P|]. split. { rewrite taper_20. assert (/ 2 ^ 52 <= / 1000000000000) by (apply Rinv_le_contravar; lra). lra. }
  split; [exact gauss_dish|]. exists 135%nat, 135%nat. split; [lia|]. split; [lia|]. exact dish_open.
Qed.
