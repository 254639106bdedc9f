(** Specification: IEEE binary64 evaluation of the order formula. *)
From Flocq Require Import Core.
From Verif Require Import PyBase.
Open Scope R_scope.

(** Rounding to binary64, nearest, ties to even (no overflow range is needed). *)
Definition fl (x : R) : R := round radix2 (FLT_exp (-1074) 53) ZnearestE x.

(** aperture.py:242 [int((np.sqrt(1 + 8 * K_coeff.size) - 3) / 2)] with every
    operation rounded to binary64: the Python integer is converted to a double,
    then correctly rounded sqrt, subtraction and division, then truncation. *)
Definition order64 (size : nat) : Z :=
  Ztrunc (fl (fl (fl (sqrt (fl (IZR (8 * Z.of_nat size + 1)))) - 3) / 2)).

(** math_functions.py:31 for finite doubles, each operation rounded. *)
Definition norm64 (mn mx p : R) : R := fl (fl (p - mn) / fl (mx - mn)).
