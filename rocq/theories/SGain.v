(** Specification of the gain of a telescope: sums over the samples of the
    aperture, the phase of the aperture field, weighted mean and variance. *)
From Coq Require Import Reals List ZArith.
From Verif Require Import PyBase Sums MMath MAperture SZernike SRad.
Open Scope R_scope.

(** Sum of [f] over the N x N samples of the square [-box, box]^2. *)
Definition over_samples (box : R) (N : nat) (f : R -> R -> R) : R :=
  Rsum N (fun j => Rsum N (fun i => f (sample box N i) (sample box N j))).

(** Phase of the aperture field, radians: Zernike series and defocus. *)
Definition aperture_phase (tel : telgeo) (n : nat) (K : list R) (d_z wavel x y : R) : R :=
  2 * PI * (zernike_series n (coeff_of K) (sqrt (x ^ 2 + y ^ 2) / tel_pr tel) (arctan2 y x) + opd_func tel x y d_z / wavel).

(** Mean and variance of [f] with the weights [w]. *)
Definition weighted_mean (box : R) (N : nat) (w f : R -> R -> R) : R :=
  over_samples box N (fun x y => w x y * f x y) / over_samples box N w.
Definition weighted_variance (box : R) (N : nat) (w f : R -> R -> R) : R :=
  weighted_mean box N w (fun x y => (f x y - weighted_mean box N w f) ^ 2).
