(** Specification vocabulary: points and readings for which rounding leaves the residual meaningful. *)
From Coq Require Import Reals List.
From Verif Require Import PyBase Num MMath SRound.
Open Scope R_scope.

(** A coordinate on the grid of N points with step h, off its border by the rounding error of the axis. *)
Definition well_inside (h : R) (N : nat) (x : R) : Prop := Rabs x <= (INR (N - 1) - INR (N / 2)) * h * (1 - INR N * / 2 ^ 49).
(** A coordinate off the grid by more than that error. *)
Definition well_outside (h : R) (N : nat) (x : R) : Prop := INR (N / 2) * h * (1 + INR N * / 2 ^ 49) < Rabs x.

(** Readings (possibly not finite) that are equal or differ by a number that does not underflow. *)
Definition resolved (b : list num) : Prop := forall x y, In (Fin x) b -> In (Fin y) b -> x = y \/ tiny <= Rabs (x - y).
