(** Model of pyoof/telgeometry.py, elementwise in (x, y) (lengths in metres). *)
From Verif Require Import PyBase Num MMath.
Open Scope R_scope.

(** telgeometry.py:65-100 [opd_manual(Fp, F)](x, y, d_z). *)
Definition opd_manual (Fp F x y d_z : R) : R :=
  let r := sqrt (x ^ 2 + y ^ 2) in
  let a := r / (2 * Fp) in
  let b := r / (2 * F) in
  d_z * ((1 - a ^ 2) / (1 + a ^ 2) + (1 - b ^ 2) / (1 + b ^ 2)).

(** telgeometry.py:12-62 [opd_effelsberg(x, y, d_z)]. *)
Definition opd_effelsberg (x y d_z : R) : R :=
  let Fp := 30 in
  let F := 38739435 / 100000 in
  let r := sqrt (x ^ 2 + y ^ 2) in
  let a := r / (2 * Fp) in
  let b := r / (2 * F) in
  d_z * ((1 - a ^ 2) / (1 + a ^ 2) + (1 - b ^ 2) / (1 + b ^ 2)).

(** [block[cond] = v] on one element. *)
Definition assign (cond : bool) (v block : R) : R := if cond then v else block.

(** telgeometry.py:208-215 [block_manual(pr, sr, a, L)](x, y). *)
Definition block_manual (pr sr a L x y : R) : R :=
  let b0 := 0 in
  let b1 := assign (Rltb (x ^ 2 + y ^ 2) (pr ^ 2) && Rltb (sr ^ 2) (x ^ 2 + y ^ 2)) 1 b0 in
  let b2 := assign (Rltb (- (sr + L)) x && Rltb x (sr + L) && Rltb (- a) y && Rltb y a) 0 b1 in
  assign (Rltb (- (sr + L)) y && Rltb y (sr + L) && Rltb (- a) x && Rltb x a) 0 b2.

(** telgeometry.py:141 [np.sin(alpha) ** (-2)]. *)
Definition csc2_of (alpha : R) : num :=
  if Req_EM_T (sin alpha) 0 then PInf else Fin (/ (sin alpha) ^ 2).

(** telgeometry.py:160-161 [circ(s)] with pr = 50. *)
Definition circ (s : R) : R := sqrt (Rabs (50 ^ 2 - s ^ 2)).

(** telgeometry.py:103-177 [block_effelsberg(alpha)](x, y); alpha in radians.
    [d] (:144), [C], [D] (:149-150) may be NaN, comparisons with NaN are false. *)
Definition block_effelsberg (alpha x y : R) : R :=
  let pr := 50 in let sr := 13 / 4 in let L := 20 in let a := 1 in
  let b0 := 0 in
  let b1 := assign (Rltb (x ^ 2 + y ^ 2) (pr ^ 2) && Rltb (sr ^ 2) (x ^ 2 + y ^ 2)) 1 b0 in
  let b2 := assign (Rltb (- (sr + L)) x && Rltb x (sr + L) && Rltb (- a) y && Rltb y a) 0 b1 in
  let b3 := assign (Rltb (- (sr + L)) y && Rltb y (sr + L) && Rltb (- a) x && Rltb x a) 0 b2 in
  let csc2 := csc2_of alpha in
  let d := ndiv (nadd (Fin (- a)) (nsqrt (nsub (Fin (a ^ 2)) (nmul (Fin (a ^ 2 - pr ^ 2)) csc2)))) csc2 in
  let A := Fin (sr + L) in
  let B := Fin a in
  let C := ndiv d (ndiv (Fin (sin alpha)) (Fin (cos alpha))) in
  let D := nadd (Fin a) d in
  let X := Fin x in let Y := Fin y in
  let y1 := line_equation (A, B) (C, D) X in
  let y2 := line_equation (A, nneg B) (C, nneg D) X in
  let x3 := line_equation (nneg A, B) (nneg C, D) Y in
  let x4 := line_equation (nneg A, nneg B) (nneg C, nneg D) Y in
  let y5 := line_equation (nneg A, nneg B) (nneg C, nneg D) X in
  let y6 := line_equation (nneg A, B) (nneg C, D) X in
  let x7 := line_equation (A, nneg B) (C, nneg D) Y in
  let x8 := line_equation (A, B) (C, D) Y in
  let b4 := assign (nlt A X && ngt C X && ngt y1 Y && nlt y2 Y) 0 b3 in
  let b5 := assign (Rltb x pr && nlt C X && Rltb y (circ x) && Rltb (- circ x) y) 0 b4 in
  let b6 := assign (ngt (nneg A) Y && nlt (nneg C) Y && nlt x4 X && ngt x3 X) 0 b5 in
  let b7 := assign (Rltb (- pr) y && ngt (nneg C) Y && Rltb x (circ y) && Rltb (- circ y) x) 0 b6 in
  let b8 := assign (ngt (nneg A) X && nlt (nneg C) X && nlt y5 Y && ngt y6 Y) 0 b7 in
  let b9 := assign (Rltb (- pr) x && ngt (nneg C) X && Rltb y (circ x) && Rltb (- circ x) y) 0 b8 in
  let b10 := assign (nlt A Y && ngt C Y && nlt x7 X && ngt x8 X) 0 b9 in
  assign (Rltb y pr && nlt C Y && Rltb y (circ x) && Rltb (- circ x) y) 0 b10.
