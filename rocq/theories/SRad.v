(** Specification of the far field of an aperture and of the modelled beam maps. *)
From Coq Require Import Reals List ZArith.
From Verif Require Import MMath MAperture MRad SZernike.
From Coquelicot Require Import Complex.
Open Scope R_scope.

(** Field over the aperture plane: blockage times illumination, with the phase (in
    turns) of the Zernike series and of the defocus path difference. *)
Definition aperture_field (tel : telgeo) (Ea : R -> R -> R) (n : nat) (K : list R) (d_z wavel x y : R) : C :=
  Cmult (RtoC (block_dist tel x y * Ea x y))
    (cis (2 * PI * (zernike_series n (coeff_of K) (sqrt (x ^ 2 + y ^ 2) / tel_pr tel) (arctan2 y x) + opd_func tel x y d_z / wavel))).

(** N samples from -box to box. *)
Definition sample (box : R) (N i : nat) : R := - box + 2 * box * INR i / (INR N - 1).

(** Far field in the direction (u, v), radians: every sample of the aperture
    contributes with the phase of its path difference u x + v y. *)
Definition far_field (E : R -> R -> C) (box : R) (N : nat) (wavel u v : R) : C :=
  Csum N (fun j => Csum N (fun i =>
    Cmult (E (sample box N i) (sample box N j)) (cis (- (2 * PI * ((u * sample box N i + v * sample box N j) / wavel)))))).

(** [value] is the bilinear interpolation, at (x, y), of the function [P] known at
    the multiples (i h, j h), i and j between -(N/2) and N - 1 - N/2. *)
Definition interpolates (P : R -> R -> R) (h : R) (N : nat) (x y value : R) : Prop :=
  exists (i j : Z) (s t : R), (- Z.of_nat (N / 2) <= i)%Z /\ (i + 1 <= Z.of_nat (N - 1 - N / 2))%Z /\ (- Z.of_nat (N / 2) <= j)%Z /\ (j + 1 <= Z.of_nat (N - 1 - N / 2))%Z /\
    0 <= s <= 1 /\ 0 <= t <= 1 /\ x = (IZR i + s) * h /\ y = (IZR j + t) * h /\
    value = (1 - s) * (1 - t) * P (IZR i * h) (IZR j * h) + (1 - s) * t * P (IZR i * h) ((IZR j + 1) * h)
          + s * (1 - t) * P ((IZR i + 1) * h) (IZR j * h) + s * t * P ((IZR i + 1) * h) ((IZR j + 1) * h).
