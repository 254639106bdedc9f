(** Specification: the coefficients of a mirrored and of a transposed wavefront. *)
From Coq Require Import Reals ZArith Bool.
Open Scope R_scope.

(** y -> -y: the sine terms (l < 0) change sign. *)
Definition mirrored_y (c : nat -> Z -> R) (i : nat) (l : Z) : R := if Z.ltb l 0 then - c i l else c i l.
(** x -> -x: the odd cosine terms and the even sine terms change sign. *)
Definition mirrored_x (c : nat -> Z -> R) (i : nat) (l : Z) : R :=
  if xorb (Z.odd l) (Z.ltb l 0) then - c i l else c i l.
(** x and y exchanged: for odd l sine and cosine are exchanged; the sign
    alternates with |l| / 2, and sine terms of even l change sign. *)
Definition transposed (c : nat -> Z -> R) (i : nat) (l : Z) : R :=
  let s := if Z.odd (Z.abs l / 2) then -1 else 1 in
  if Z.odd l then s * c i (- l)%Z else s * mirrored_y c i l.
