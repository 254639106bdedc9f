(** C114: rounding errors of the residual of a fit. *)
From Coq Require Import Reals ZArith List Lia Lra.
From Verif Require Import PyBase Num MMath MAperture MTel MRad MCore SCore SFloat MFloat MFloat2 MFloat3 MFloat4 MFloat5 SRad SGain SRound SRound2 SRound3 SRound4 PEnd PRound13 PRound14 PRound16 PRound17 PRound18.
From Coquelicot Require Import Complex.
Import ListNotations.
Open Scope R_scope.
Open Scope list_scope.

(** C114. A modelled map at the points of the data, off the border of the grid: binary64 is within 5 l + N^2 2^-46 of the exact value,
    relative to the largest power that the aperture can give, where l bounds the loss in the field and in the transform (C113). *)
Theorem C114_map e ef m n K pr sr a L Fp F bf wavel i_amp c_dB q x0 y0 N u_data v_data d_z i z xs ys l :
  unit_roundoff <= e -> accurate_maths e m -> accurate_fft ef (m_fft m) -> 0 <= ef <= / 1000 -> INR N <= 2 ^ 20 ->
  (exists i j, (i < N)%nat /\ (j < N)%nat /\ block_manual pr sr a L (sample (pr * bf) N i) (sample (pr * bf) N j) <> 0) ->
  within_reach e n K pr sr a L Fp F bf wavel z i_amp c_dB q x0 y0 N -> field_loss n bf q (turns K z wavel) * e + ef <= l ->
  nth_error d_z i = Some z -> nth_error u_data i = Some xs -> nth_error v_data i = Some ys -> length xs = length ys ->
  (forall x, In x (xs ++ ys) -> well_inside (grid_step pr wavel N bf) N x) ->
  exists row row64, model_row illum_parabolic (manual pr sr a L Fp F) ([i_amp; c_dB; q; x0; y0] ++ K) u_data v_data d_z wavel N bf i = Ok row /\ length row = length xs /\
    model_row64 m (illum_parabolic64 m) (manual64 pr sr a L Fp F) ([i_amp; c_dB; q; x0; y0] ++ K) u_data v_data d_z wavel N bf i = Ok row64 /\
    Forall2 (fun x64 x => Rabs (x64 - x) <= (5 * l + INR N ^ 2 * / 2 ^ 46) * (Rabs i_amp * over_samples (pr * bf) N (block_manual pr sr a L)) ^ 2) row64 row.
Proof. exact (fun H1 H2 H3 H4 H5 H6 => row_api e ef m n K pr sr a L Fp F bf wavel i_amp c_dB q x0 y0 N H1 H2 H3 H4 H5 H6 u_data v_data d_z i z xs ys l). Qed.
Print Assumptions C114_map.

(** The normalised readings: binary64 is within 2^-51 of the exact value; a map with a reading that is not finite becomes zero in both. *)
Theorem C114_norm P : P <> [] -> resolved P ->
  exists q q64, norm_all P = Ok q /\ norm_row64 P = Ok q64 /\ Forall2 (fun x x64 => Rabs (x64 - x) <= 4 * unit_roundoff) q q64.
Proof. exact (norm_resolved P). Qed.
Print Assumptions C114_norm.

(** The residual: three maps of M points, each modelled map with two values that differ by D at least. *)
Theorem C114_residual e ef m n K pr sr a L Fp F bf wavel i_amp c_dB q x0 y0 N beam u_data v_data d_z M l D :
  unit_roundoff <= e -> accurate_maths e m -> accurate_fft ef (m_fft m) -> 0 <= ef <= / 1000 -> INR N <= 2 ^ 20 ->
  (exists i j, (i < N)%nat /\ (j < N)%nat /\ block_manual pr sr a L (sample (pr * bf) N i) (sample (pr * bf) N j) <> 0) ->
  (forall z, In z d_z -> within_reach e n K pr sr a L Fp F bf wavel z i_amp c_dB q x0 y0 N) ->
  (0 < M)%nat -> map (@length num) beam = [M; M; M] -> map (@length R) u_data = [M; M; M] -> map (@length R) v_data = [M; M; M] -> length d_z = 3%nat ->
  (forall z, In z d_z -> field_loss n bf q (turns K z wavel) * e + ef <= l) ->
  (forall x, In x (concat u_data ++ concat v_data) -> well_inside (grid_step pr wavel N bf) N x) -> (forall b, In b beam -> resolved b) -> 0 < D ->
  (forall i, (i < 3)%nat -> exists row s t, model_row illum_parabolic (manual pr sr a L Fp F) ([i_amp; c_dB; q; x0; y0] ++ K) u_data v_data d_z wavel N bf i = Ok row /\
     In s row /\ In t row /\ D <= t - s) ->
  exists r r64, residual_true illum_parabolic (manual pr sr a L Fp F) ([i_amp; c_dB; q; x0; y0] ++ K) beam u_data v_data d_z wavel N bf = Ok r /\
    residual_true64 m (illum_parabolic64 m) (manual64 pr sr a L Fp F) ([i_amp; c_dB; q; x0; y0] ++ K) beam u_data v_data d_z wavel N bf = Ok r64 /\
    Forall2 (fun x x64 => Rabs (x64 - x) <=
      4 * ((5 * l + INR N ^ 2 * / 2 ^ 46) * (Rabs i_amp * over_samples (pr * bf) N (block_manual pr sr a L)) ^ 2) / D + 10 * unit_roundoff) r r64.
Proof.
  exact (fun H1 H2 H3 H4 H5 H6 H7 H8 H9 H10 H11 H12 => residual_api e ef m n K pr sr a L Fp F bf wavel i_amp c_dB q x0 y0 N beam u_data v_data d_z M H1 H2 H3 H4 H5 H6 H7 H8 H9 H10 H11 H12 l D).
Qed.
Print Assumptions C114_residual.

(** A point off the grid by more than the rounding error of the axis raises ValueError in both. *)
Theorem C114_outside e ef m n K pr sr a L Fp F bf wavel i_amp c_dB q x0 y0 N beam u_data v_data d_z M :
  unit_roundoff <= e -> accurate_maths e m -> accurate_fft ef (m_fft m) -> 0 <= ef <= / 1000 -> INR N <= 2 ^ 20 ->
  (exists i j, (i < N)%nat /\ (j < N)%nat /\ block_manual pr sr a L (sample (pr * bf) N i) (sample (pr * bf) N j) <> 0) ->
  (forall z, In z d_z -> within_reach e n K pr sr a L Fp F bf wavel z i_amp c_dB q x0 y0 N) ->
  (0 < M)%nat -> map (@length num) beam = [M; M; M] -> map (@length R) u_data = [M; M; M] -> map (@length R) v_data = [M; M; M] -> length d_z = 3%nat ->
  (exists x, In x (concat u_data ++ concat v_data) /\ well_outside (grid_step pr wavel N bf) N x) ->
  residual_true illum_parabolic (manual pr sr a L Fp F) ([i_amp; c_dB; q; x0; y0] ++ K) beam u_data v_data d_z wavel N bf = Err ValueError /\
  residual_true64 m (illum_parabolic64 m) (manual64 pr sr a L Fp F) ([i_amp; c_dB; q; x0; y0] ++ K) beam u_data v_data d_z wavel N bf = Err ValueError.
Proof.
  exact (fun H1 H2 H3 H4 H5 H6 H7 H8 H9 H10 H11 H12 => residual_outside e ef m n K pr sr a L Fp F bf wavel i_amp c_dB q x0 y0 N beam u_data v_data d_z M H1 H2 H3 H4 H5 H6 H7 H8 H9 H10 H11 H12).
Qed.
Print Assumptions C114_outside.

(** The manual dish with a defocus term and the offsets 22 mm, 0 and -22 mm, 6 by 6 points on twice its size, two points per map; one reading is not a
    number.  A coordinate of one radian is off the grid. *)
Example C114_nonvacuous : unit_roundoff <= / 2 ^ 52 /\ accurate_maths (/ 2 ^ 52) rounding_maths /\ accurate_fft (/ 2 ^ 40) (m_fft rounding_maths) /\ 0 <= / 2 ^ 40 <= / 1000 /\ INR 6 <= 2 ^ 20 /\
  (exists i j, (i < 6)%nat /\ (j < 6)%nat /\ block_manual 50 3 1 20 (sample (50 * 2) 6 i) (sample (50 * 2) 6 j) <> 0) /\
  (forall z, In z bowl_z -> within_reach (/ 2 ^ 52) 2 bowl_K 50 3 1 20 30 300 2 (9 / 1000) z 2 (-12) 2 0 0 6 /\ field_loss 2 2 2 (turns bowl_K z (9 / 1000)) * / 2 ^ 52 + / 2 ^ 40 <= / 2 ^ 30 + / 2 ^ 40) /\
  map (@length num) bowl_beam = [2; 2; 2]%nat /\ map (@length R) bowl_x = [2; 2; 2]%nat /\ map (@length R) bowl_y = [2; 2; 2]%nat /\ length bowl_z = 3%nat /\
  (forall x, In x (concat bowl_x ++ concat bowl_y) -> well_inside (grid_step 50 (9 / 1000) 6 2) 6 x) /\ (forall b, In b bowl_beam -> resolved b) /\
  (exists D, 0 < D /\ forall i, (i < 3)%nat -> exists row s t, model_row illum_parabolic (manual 50 3 1 20 30 300) ([2; -12; 2; 0; 0] ++ bowl_K) bowl_x bowl_y bowl_z (9 / 1000) 6 2 i = Ok row /\
     In s row /\ In t row /\ D <= t - s) /\
  well_outside (grid_step 50 (9 / 1000) 6 2) 6 1.
Proof.
  assert (P : 0 <= / 2 ^ 40 <= / 1000). { split; [left; apply Rinv_0_lt_compat, pow_lt; lra|]. apply Rinv_le_contravar; [lra|]. apply Rle_trans with (2 ^ 10); [lra|apply Rle_pow; [lra|lia]]. }
  assert (I6 : INR 6 = 6) by (rewrite INR_IZR_INZ; reflexivity).
  split; [exact u_52|]. split; [exact rounding_accurate|]. split; [apply fft2_exact, P|]. split; [exact P|]. split; [rewrite I6; lra|]. split; [exists 2%nat, 3%nat; split; [lia|]; split; [lia|]; exact bowl_open|].
  split; [intros z Hz; split; [exact (bowl_reach z Hz)|pose proof (bowl_loss z Hz); lra]|]. do 4 (split; [reflexivity|]). split; [exact bowl_inside|]. split; [exact bowl_resolved|].
  split; [exists (4 * bowl_A ^ 2); split; [pose proof bowl_A_pos; assert (0 < bowl_A ^ 2) by (apply pow_lt; assumption); lra|exact bowl_contrast]|].
  unfold well_outside, grid_step. rewrite I6. change (6 / 2)%nat with 3%nat. replace (INR 3) with 3 by (cbn [INR]; lra). rewrite Rabs_pos_eq by lra. lra.
Qed.
