(** Specification vocabulary: accuracy of the binary64 evaluation. *)
From Coq Require Import Reals ZArith List.
From Verif Require Import PyBase MFloat.
Open Scope R_scope.

(** The library functions return values within e of the exact ones: powers of radii on the
    dish, sines and cosines. *)
Definition accurate (e : R) (lm : libm) : Prop :=
  (forall k x, (0 <= k)%Z -> 0 <= x <= 1 -> Rabs (lm_pow lm k x - powerRZ x k) <= e) /\
  (forall x, Rabs (lm_cos lm x - cos x) <= e) /\ (forall x, Rabs (lm_sin lm x - sin x) <= e).

(** The unit roundoff of binary64. *)
Definition unit_roundoff : R := / 2 ^ 53.

(** A bound on the loss of accuracy for a polynomial of order n. *)
Definition loss (n : nat) : R := 2 * (INR n + 6) * (5 / 2) ^ n.

(** Sum of the absolute values. *)
Definition total_abs (K : list R) : R := fold_right (fun k acc => Rabs k + acc) 0 K.

(** A number far below the smallest coefficient of any use. *)
Definition tiny : R := / 2 ^ 900.
