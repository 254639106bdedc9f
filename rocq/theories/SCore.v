(** Specification vocabulary for radiation_pattern and residual_true. *)
From Coq Require Import Reals List.
Open Scope R_scope.

(** Spacing (radians) of the frequency axis for a dish of radius [pr], and the
    interval the axis of [N] samples covers. *)
Definition grid_step (pr wavel : R) (N : nat) (bf : R) : R := wavel * (INR N - 1) / (2 * (bf * pr) * INR N).
Definition in_grid (h : R) (N : nat) (x : R) : Prop := - INR (N / 2) * h <= x <= (INR (N - 1) - INR (N / 2)) * h.

Definition increasing (grid : list R) : Prop := forall a b, (a < b < length grid)%nat -> nth a grid 0 < nth b grid 0.
