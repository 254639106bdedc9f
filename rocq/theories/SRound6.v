(** Specification vocabulary: gaussian illumination in binary64. *)
From Coq Require Import Reals ZArith List.
From Verif Require Import PyBase MRad MAperture MTel MFloat4 SRad SRound SRound2 SRound3.
From Coquelicot Require Import Complex.
Open Scope R_scope.

(** The exponential of numbers up to 0 and the squares of numbers in the range of the tapers, within e of the exact ones. *)
Definition accurate_gauss (e : R) (mexp msq : R -> R) : Prop :=
  (forall x, x <= 0 -> Rabs (mexp x - exp x) <= e) /\ (forall x, / 2 ^ 100 <= x <= 2 -> Rabs (msq x - x ^ 2) <= e * x ^ 2).

(** The taper as a fraction, the largest value of the illumination, and the loss of accuracy of the field: a deep taper makes the
    gaussian narrow, and the rounding of the coordinates more visible. *)
Definition taper (c_dB : R) : R := Rpower 10 (c_dB / 20).
Definition gauss_peak (i_amp c_dB : R) : R := Rabs i_amp * sqrt (2 * PI * taper c_dB ^ 2).
Definition gauss_loss (n : nat) (bf c_dB turns : R) : R := field_loss n bf (3 / taper c_dB ^ 2) turns.

(** As within_reach, for a gaussian illumination whose centre (x0, y0) is in the dish. *)
Definition gauss_reach (e : R) (n : nat) (K : list R) (pr sr a L Fp F bf wavel d_z i_amp c_dB x0 y0 : R) (N : nat) : Prop :=
  (2 * length K = (n + 1) * (n + 2))%nat /\ (8 * Z.of_nat (length K) + 1 < 2 ^ 53)%Z /\ dimensions pr sr a L Fp F bf wavel d_z N /\
  (forall i j, (i < N)%nat -> (j < N)%nat -> clear (100 * e) (pr * bf) pr sr a L (sample (pr * bf) N i) (sample (pr * bf) N j)) /\
  / 2 ^ 100 <= gauss_peak i_amp c_dB /\ -100 <= c_dB <= 0 /\ x0 ^ 2 + y0 ^ 2 <= pr ^ 2 /\ gauss_loss n bf c_dB (turns K d_z wavel) * e <= / 1000.
