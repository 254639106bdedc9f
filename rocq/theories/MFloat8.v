(** Model of telgeometry.opd_effelsberg, telgeometry.block_effelsberg and math_functions.line_equation in IEEE binary64:
    the branches of MTel.v and MMath.v with every numpy operation rounded.
    Simplifications: as in MFloat4.v; angles alpha (radians) for which no division is by zero, so that every number is finite. *)
From Coq Require Import List Bool.
From Verif Require Import PyBase Num MAperture MTel SFloat MFloat MFloat2 MFloat4.
Open Scope R_scope.

(** math_functions.py:123-128 [line_equation(P1, P2, x)]. *)
Definition line_equation64 (P1 P2 : R * R) (x : R) : R :=
  let '(x1, y1) := P1 in let '(x2, y2) := P2 in
  fl (fl (fl (fl (y2 - y1) / fl (x2 - x1)) * fl (x - x1)) + y1).

(** telgeometry.py:54-62 [opd_effelsberg(x, y, d_z)]: the focal length 387.39435 m is rounded when it is read. *)
Definition opd_effelsberg64 (x y d_z : R) : R :=
  let Fp := 30 in
  let F := fl (38739435 / 100000) in
  let r := fl (sqrt (fl (square64 x + square64 y))) in
  let a := fl (r / fl (2 * Fp)) in
  let b := fl (r / fl (2 * F)) in
  fl (d_z * fl (fl (fl (1 - square64 a) / fl (1 + square64 a)) + fl (fl (1 - square64 b) / fl (1 + square64 b)))).

(** telgeometry.py:127-177 [block_effelsberg(alpha)](x, y): [mcsc2 alpha] is [np.sin(alpha) ** (-2)], [mtan] is np.tan;
    changes of sign, np.abs, comparisons and stores are exact. *)
Definition block_effelsberg64 (mcsc2 mtan : R -> R) (alpha x y : R) : R :=
  let pr := 50 in let sr := 13 / 4 in let L := 20 in let a := 1 in
  let s := fl (square64 x + square64 y) in
  let t := fl (sr + L) in
  let b1 := assign (Rltb s (square64 pr) && Rltb (square64 sr) s) 1 0 in
  let b2 := assign (Rltb (- t) x && Rltb x t && Rltb (- a) y && Rltb y a) 0 b1 in
  let b3 := assign (Rltb (- t) y && Rltb y t && Rltb (- a) x && Rltb x a) 0 b2 in
  let csc2 := mcsc2 alpha in
  let d := fl (fl (- a + fl (sqrt (fl (square64 a - fl (fl (square64 a - square64 pr) * csc2))))) / csc2) in
  let A := fl (sr + L) in
  let B := a in
  let C := fl (d / mtan alpha) in
  let D := fl (a + d) in
  let y1 := line_equation64 (A, B) (C, D) x in
  let y2 := line_equation64 (A, - B) (C, - D) x in
  let x3 := line_equation64 (- A, B) (- C, D) y in
  let x4 := line_equation64 (- A, - B) (- C, - D) y in
  let y5 := line_equation64 (- A, - B) (- C, - D) x in
  let y6 := line_equation64 (- A, B) (- C, D) x in
  let x7 := line_equation64 (A, - B) (C, - D) y in
  let x8 := line_equation64 (A, B) (C, D) y in
  let circ s := fl (sqrt (Rabs (fl (square64 pr - square64 s)))) in
  let b4 := assign (Rltb A x && Rltb x C && Rltb y y1 && Rltb y2 y) 0 b3 in
  let b5 := assign (Rltb x pr && Rltb C x && Rltb y (circ x) && Rltb (- circ x) y) 0 b4 in
  let b6 := assign (Rltb y (- A) && Rltb (- C) y && Rltb x4 x && Rltb x x3) 0 b5 in
  let b7 := assign (Rltb (- pr) y && Rltb y (- C) && Rltb x (circ y) && Rltb (- circ y) x) 0 b6 in
  let b8 := assign (Rltb x (- A) && Rltb (- C) x && Rltb y5 y && Rltb y y6) 0 b7 in
  let b9 := assign (Rltb (- pr) x && Rltb x (- C) && Rltb y (circ x) && Rltb (- circ x) y) 0 b8 in
  let b10 := assign (Rltb A y && Rltb y C && Rltb x7 x && Rltb x x8) 0 b9 in
  assign (Rltb y pr && Rltb C y && Rltb y (circ x) && Rltb (- circ x) y) 0 b10.
