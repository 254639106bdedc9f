(** Vocabulary of the actuator properties, independent of the model. *)
From Coq Require Import String Ascii List Reals ZArith.
From Verif Require Import PyBase Num MFs.
Import ListNotations.
Open Scope R_scope.
Open Scope string_scope.
Open Scope list_scope.

(** An r x c array, given as the list of its rows, and its element (i, j). *)
Definition rect {A} (r c : nat) (m : list (list A)) : Prop := length m = r /\ Forall (fun row => length row = c) m.
Definition elem {A} (d : A) (m : list (list A)) (i j : nat) : A := nth j (nth i m []) d.

(** Where a turn by k quarters from the first towards the second axis takes the
    element (i, j) of the turned array from, in an r x c array. *)
Definition turned_from (k : Z) (r c i j : nat) : nat * nat :=
  match (k mod 4)%Z with
  | 0%Z => (i, j)
  | 1%Z => (j, c - 1 - i)%nat
  | 2%Z => (r - 1 - i, c - 1 - j)%nat
  | _ => (r - 1 - j, i)%nat
  end.
(** The shape of the turned array. *)
Definition turned_shape (k : Z) (r c : nat) : nat * nat :=
  if Z.even k then (r, c) else (c, r).

(** A displacement kept between two limits. *)
Definition between (lo hi : R) (x : num) : num :=
  match x with Fin t => Fin (Rmax lo (Rmin hi t)) | PInf => Fin hi | NInf => Fin lo | NaN => NaN end.

(** z is the integer nearest to x; half way between two integers it is the even one. *)
Definition rounded (x : R) (z : Z) : Prop :=
  Rabs (x - IZR z) < / 2 \/ (Rabs (x - IZR z) = / 2 /\ Z.even z = true).

(** The text of a look-up table: one line per actuator, eleven numbers each. *)
Definition table_line (k : nat) (zs : list Z) : string :=
  "NR " ^^ dec (k + 1) ^^ " ffff " ^^ String.concat "  " (map decZ zs) ^^ String (Ascii.ascii_of_nat 10) "".
Definition table_text (z : nat -> nat -> Z) : string :=
  fold_right String.append "" (map (fun k => table_line k (map (fun j => z j k) (seq 0 11))) (seq 0 96))
  ^^ "**ENDE**" ^^ String (Ascii.ascii_of_nat 10) "".

(** The sub-reflector: an ellipse with half axes a (along the axis) and b. *)
Definition ellipse (a b r : R) : R := a * sqrt (1 - r ^ 2 / b ^ 2).
