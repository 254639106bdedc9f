(** Specification vocabulary: sums of rounded numbers in any order. *)
From Coq Require Import Reals ZArith List Permutation.
From Verif Require Import PyBase MMath MFloat2.
Import ListNotations.
Open Scope R_scope.

Fixpoint summands (t : adding) : list R := match t with One x => [x] | Plus a b => summands a ++ summands b end.

(** The most additions that one summand goes through. *)
Fixpoint depth (t : adding) : nat := match t with One _ => O | Plus a b => S (Nat.max (depth a) (depth b)) end.

(** [t] adds the numbers of the list, in whatever order, and possibly some zeros to start with. *)
Definition adds (t : adding) (l : list R) : Prop := exists k, (k <= length l)%nat /\ Permutation (summands t) (l ++ repeat 0 k).

(** An arctangent of two arguments within e of the exact one, up to a full turn (at the cut), and between -pi and pi. *)
Definition accurate_angle (e : R) (atan2 : R -> R -> R) : Prop :=
  forall y x, Rabs (atan2 y x) <= PI /\ exists k : Z, Rabs (atan2 y x - arctan2 y x - 2 * PI * IZR k) <= e.
