(** Model of aperture.phase in IEEE binary64: the branches of MAperture.v with every
    numpy operation rounded.  Simplification: no overflow. *)
From Coq Require Import List.
From Verif Require Import PyBase Num MAperture SFloat MFloat MFloat2.
Import ListNotations.
Open Scope R_scope.

(** math_functions.py:41-63 [cart2pol(x, y)]; [atan2] is np.arctan2 of the numpy build. *)
Definition cart2pol64 (atan2 : R -> R -> R) (x y : R) : R * R := (fl (sqrt (fl (square64 x + square64 y))), atan2 y x).

(** aperture.py:334-348, from the local coefficients to the map. *)
Definition phase_map64 (lm : libm) (atan2 : R -> R -> R) (K : list R) (pr : R) (resolution : nat)
  : res (list R * list R * list (list R)) :=
  let x := map (linspace64 (- pr) pr resolution) (seq 0 resolution) in
  let y := map (linspace64 (- pr) pr resolution) (seq 0 resolution) in
  let grid := meshgrid x y in
  bind (wavefront64 lm K) (fun W =>
  let phi := map2d (fun '(xx, yy) =>
      let '(r, t) := cart2pol64 atan2 xx yy in
      fl (fl ((if Rltb (square64 pr) (fl (square64 xx + square64 yy)) then 0 else W (fl (r / pr)) t) * 2) * fl PI)) grid in
  Ok (x, y, phi)).

(** aperture.py:256-348 [phase(K_coeff, pr, piston, tilt, resolution)]: storing 0 in the copy is exact. *)
Definition phase_heap64 (lm : libm) (atan2 : R -> R -> R) (h : heap) (p : nat) (pr : R) (piston tilt : bool) (resolution : nat)
  : heap * res (list R * list R * list (list R)) :=
  let q := length h in
  let h1 := h ++ [nth p h []] in                       (* :324 K_coeff.copy() *)
  match (if piston then (h1, Ok tt) else hset h1 q 0 0) with          (* :327-328 *)
  | (h2, Err e) => (h2, Err e)
  | (h2, Ok _) =>
      match (if tilt then (h2, Ok tt) else hset_tilt h2 q) with       (* :330-332 *)
      | (h3, Err e) => (h3, Err e)
      | (h3, Ok _) => (h3, phase_map64 lm atan2 (nth q h3 []) pr resolution)
      end
  end.

(** The value returned for a coefficient array [K]. *)
Definition phase64 (lm : libm) (atan2 : R -> R -> R) (K : list R) (pr : R) (piston tilt : bool) (resolution : nat)
  : res (list R * list R * list (list R)) :=
  snd (phase_heap64 lm atan2 [K] 0 pr piston tilt resolution).
