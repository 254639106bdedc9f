(** Specification vocabulary: the phase map and the aperture field. *)
From Coq Require Import List.
From Verif Require Import PyBase.
Open Scope R_scope.

(** What the switches piston and tilt leave out of a phase map, in wavelengths, at the
    point (x, y) of a dish of radius pr. *)
Definition left_out (piston tilt : bool) (K : list R) (pr x y : R) : R :=
  (if piston then 0 else nth 0 K 0) + (if tilt then 0 else (nth 1 K 0 * y + nth 2 K 0 * x) / pr).
(** The coefficients of a perfect surface. *)
Definition perfect (K : list R) : list R := map (fun _ => 0) K.
