(** Specification of the aperture blockage. *)
From Coq Require Import Reals.
Open Scope R_scope.

(** Open annulus between sub-reflector and dish rim. *)
Definition annulus (pr sr x y : R) : Prop := sr ^ 2 < x ^ 2 + y ^ 2 < pr ^ 2.

(** The support legs: two crossed rectangles of half-length [len] and half-width [a]. *)
Definition legs (a len x y : R) : Prop :=
  (Rabs x < len /\ Rabs y < a) \/ (Rabs y < len /\ Rabs x < a).

(** Shade of the leg along +x at Effelsberg: the trapezium from (23.25, +-1) to
    (C, +-D), and the rest of the dish beyond x = C. *)
Definition shade (C D x y : R) : Prop :=
  (93 / 4 < x < C /\ Rabs y < 1 + (x - 93 / 4) * ((D - 1) / (C - 93 / 4))) \/ C < x.

(** The shades of the four legs. *)
Definition shades (C D x y : R) : Prop :=
  shade C D x y \/ shade C D (- x) y \/ shade C D y x \/ shade C D (- y) x.
