(** Model of core.residual_true in IEEE binary64: the branches of MCore.v with every numpy and scipy
    operation rounded.  Simplifications: no overflow; angles in radians. *)
From Coq Require Import List.
From Verif Require Import PyBase Num MMath MAperture MRad MCore SFloat MFloat MFloat2 MFloat3 MFloat4.
From Coquelicot Require Import Complex.
Import ListNotations.
Open Scope R_scope.

(** core.py:113-125, scipy's RegularGridInterpolator with method='linear' at one point (x, y): the cell is found by
    comparisons; the four terms are added in the order of scipy's loop over the corners. *)
Definition interp2_64 (u v : list R) (vals : list (list R)) (x y : R) : R :=
  let i := find_index u x in
  let j := find_index v y in
  let tx := fl (fl (x - nth i u 0) / fl (nth (i + 1) u 0 - nth i u 0)) in
  let ty := fl (fl (y - nth j v 0) / fl (nth (j + 1) v 0 - nth j v 0)) in
  let sx := fl (1 - tx) in
  let sy := fl (1 - ty) in
  let P a b := nth a (nth b vals []) 0 in
  fl (fl (fl (fl (P i j * fl (sx * sy)) + fl (P i (j + 1)%nat * fl (sx * ty)))
      + fl (P (i + 1)%nat j * fl (tx * sy))) + fl (P (i + 1)%nat (j + 1)%nat * fl (tx * ty))).

(** core.py:120-125, at the points of a map; exceptions as in MCore.v. *)
Definition interp_points64 (u v : list R) (vals : list (list R)) (xs ys : list R) : res (list R) :=
  if Nat.eqb (length xs) (length ys) then
    if forallb (in_bounds u) xs && forallb (in_bounds v) ys
    then Ok (map2 (interp2_64 u v vals) xs ys)
    else Err ValueError
  else Err ValueError.

(** core.py:97-125: the model beam of map [i] at the data points. *)
Definition model_row64 (m : maths) (illum : list R -> R -> res (R -> R -> R)) (tel : telgeo) (params : list R)
    (u_data v_data : list (list R)) (d_z : list R) (wavel : R) (N : nat) (bf : R) (i : nat) : res (list R) :=
  bind (py_get d_z i) (fun dz =>
  bind (radiation_pattern64 m illum tel (firstn 5 params) (skipn 5 params) dz wavel N bf) (fun '(u, v, F) =>
  bind (py_get u_data i) (fun xs =>
  bind (py_get v_data i) (fun ys =>
  interp_points64 u v (power_pattern64 m F) xs ys)))).

(** math_functions.py:35-38, one value of a row; SFloat.norm64 is the case of finite values. *)
Definition norm_by64 (mn mx p : num) : R := nan_to_num (nfl (ndiv (nfl (nsub p mn)) (nfl (nsub mx mn)))).

(** math_functions.py:34-38 [norm(P, axis=1)]; minima and maxima are exact. *)
Definition norm_row64 (P : list num) : res (list R) :=
  bind (np_min P) (fun mn => bind (np_max P) (fun mx => Ok (map (norm_by64 mn mx) P))).
Definition norm_rows64 (P : list (list num)) : res (list (list R)) := mapM norm_row64 P.

(** core.py:94-131 [residual_true] with interp=True. *)
Definition residual_true64 (m : maths) (illum : list R -> R -> res (R -> R -> R)) (tel : telgeo) (params : list R)
    (beam_data : list (list num)) (u_data v_data : list (list R)) (d_z : list R) (wavel : R) (N : nat) (bf : R)
  : res (list R) :=
  let zeros := map (map (fun _ => 0)) beam_data in
  bind (fill_rows (model_row64 m illum tel params u_data v_data d_z wavel N bf) [0; 1; 2]%nat zeros) (fun beam_model =>
  bind (norm_rows64 beam_data) (fun data =>
  bind (norm_rows64 (map (map Fin) beam_model)) (fun model =>
  Ok (concat (map2 (map2 (fun a b => fl (a - b))) data model))))).
