(** Specification vocabulary: accuracy of the functions of the numpy build. *)
From Coq Require Import Reals ZArith List.
From Verif Require Import PyBase Sums Num MMath MAperture MTel MRad MFloat MFloat4 SRad SRound SRound2.
From Coquelicot Require Import Complex.
Open Scope R_scope.

(** Powers of numbers between 0 and 1, powers of ten up to 1 and absolute values within e of the exact ones. *)
Definition accurate_maths (e : R) (m : maths) : Prop :=
  accurate e (m_lm m) /\ accurate_angle e (m_atan2 m) /\
  (forall b q, 0 <= b <= 1 -> 1 <= q -> exists v w, m_pow m b q = Fin v /\ npow b q = Fin w /\ Rabs (v - w) <= e) /\
  (forall x, x <= 0 -> Rabs (m_pow10 m x - Rpower 10 x) <= e) /\
  (forall z, Rabs (m_abs m z - Cmod z) <= e * (Cmod z + tiny)).

(** Every entry of the Fourier transform of an N by N array within e of the exact one, relative to the sum of the
    absolute values of the array. *)
Definition accurate_fft (e : R) (fft : list (list C) -> list (list C)) : Prop :=
  forall (M : list (list C)) (N : nat), length M = N -> (forall r, In r M -> length r = N) ->
    length (fft M) = N /\ (forall r, In r (fft M) -> length r = N) /\
    forall j i, (j < N)%nat -> (i < N)%nat -> Cmod (Cminus (at2 (fft M) j i) (at2 (fft2 M) j i)) <= e * Rsum N (fun b => Rsum N (fun a => Cmod (at2 M b a))).

(** The dish of radius pr with a subreflector of radius sr and four legs of half width a and length L: the point (x, y) is
    further than t from every edge, relative to the half width B of the aperture plane. *)
Definition clear (t B pr sr a L x y : R) : Prop :=
  t * B ^ 2 < Rabs (x ^ 2 + y ^ 2 - pr ^ 2) /\ t * B ^ 2 < Rabs (x ^ 2 + y ^ 2 - sr ^ 2) /\
  forall z edge, z = x \/ z = y -> edge = sr + L \/ edge = a -> t * B < Rabs (Rabs z - edge).

(** Loss of accuracy from rounding to the field of an aperture: order n, box factor bf, exponent q of the taper, and the
    largest phase in turns. *)
Definition field_loss (n : nat) (bf q turns : R) : R := bf * (130 * q + 20 * loss n * (1 + 2 * PI * turns)).

(** The largest phase in turns: Zernike coefficients K, radial offset d_z. *)
Definition turns (K : list R) (d_z wavel : R) : R := total_abs K + INR (length K) * tiny + 2 * Rabs d_z / wavel.

(** A telescope of that form with foci Fp and F, in exact numbers and in binary64. *)
Definition manual (pr sr a L Fp F : R) : telgeo := {| block_dist := block_manual pr sr a L; opd_func := opd_manual Fp F; tel_pr := pr |}.
Definition manual64 (pr sr a L Fp F : R) : telgeo := {| block_dist := block_manual64 pr sr a L; opd_func := opd_manual64 Fp F; tel_pr := pr |}.

(** Dimensions (metres) for which the numbers stay far from overflow and underflow, a dish no wider than four times the foci. *)
Definition dimensions (pr sr a L Fp F bf wavel d_z : R) (N : nat) : Prop :=
  / 2 ^ 100 <= pr /\ 1 <= bf /\ pr * bf <= 2 ^ 100 /\ INR N <= 2 ^ 40 /\ (2 <= N)%nat /\ 0 <= sr <= pr /\ 0 <= sr + L <= pr * bf /\ 0 <= a /\
  pr <= 2 * Fp /\ pr <= 2 * F /\ (d_z = 0 \/ / 2 ^ 100 <= Rabs d_z) /\ / 2 ^ 100 <= wavel <= 2 ^ 100.

(** Every sample of the aperture plane is clear of the edges, and those not blocked are inside the taper. *)
Definition samples_clear (e pr sr a L bf x0 y0 : R) (N : nat) : Prop :=
  forall i j, (i < N)%nat -> (j < N)%nat -> let x := sample (pr * bf) N i in let y := sample (pr * bf) N j in
    clear (100 * e) (pr * bf) pr sr a L x y /\ (block_manual pr sr a L x y <> 0 -> (x - x0) ^ 2 + (y - y0) ^ 2 <= pr ^ 2 - 100 * e * (pr * bf) ^ 2).

(** A triangular array K of order n, a telescope, an illumination (amplitude, taper in dB, its exponent and centre) and a grid of
    N by N points for which the loss of accuracy stays below 1/1000. *)
Definition within_reach (e : R) (n : nat) (K : list R) (pr sr a L Fp F bf wavel d_z i_amp c_dB q x0 y0 : R) (N : nat) : Prop :=
  (2 * length K = (n + 1) * (n + 2))%nat /\ (8 * Z.of_nat (length K) + 1 < 2 ^ 53)%Z /\ dimensions pr sr a L Fp F bf wavel d_z N /\
  samples_clear e pr sr a L bf x0 y0 N /\ / 2 ^ 100 <= Rabs i_amp /\ -100 <= c_dB <= 0 /\ 1 <= q /\ field_loss n bf q (turns K d_z wavel) * e <= / 1000.
