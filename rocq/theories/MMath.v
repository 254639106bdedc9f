(** Model of pyoof/math_functions.py (co_matrices is in MCoMat.v). *)
From Verif Require Import PyBase Num.
Open Scope R_scope.

(** [P.min()], [P.max()]: ValueError on an empty array. *)
Definition np_min (l : list num) : res num :=
  match l with [] => Err ValueError | x :: t => Ok (fold_left nmin t x) end.
Definition np_max (l : list num) : res num :=
  match l with [] => Err ValueError | x :: t => Ok (fold_left nmax t x) end.

(** math_functions.py:31, :33, :35-36 and :38, applied to one group of values with a common
    minimum and maximum. *)
Definition norm_by (mn mx : num) (p : num) : R :=
  nan_to_num (ndiv (nsub p mn) (nsub mx mn)).

(** math_functions.py:12-38 [norm(P)], axis=None; the array is its flat list. *)
Definition norm_all (P : list num) : res (list R) :=
  bind (np_min P) (fun mn => bind (np_max P) (fun mx => Ok (map (norm_by mn mx) P))).

(** math_functions.py:34-38 [norm(P, axis=1)] (any axis other than None, 0):
    row minima and maxima reshaped to a column. *)
Definition norm_rows (P : list (list num)) : res (list (list R)) :=
  bind (mapM np_min P) (fun mns =>
  bind (mapM np_max P) (fun mxs =>
  Ok (map (fun '(row, (mn, mx)) => map (norm_by mn mx) row) (combine P (combine mns mxs))))).

Fixpoint map2 {A B C} (f : A -> B -> C) (l1 : list A) (l2 : list B) : list C :=
  match l1, l2 with x :: t1, y :: t2 => f x y :: map2 f t1 t2 | _, _ => [] end.

(** math_functions.py:32-33 [norm(P, axis=0)]: column minima and maxima,
    broadcast over the rows. *)
Definition norm_cols (P : list (list num)) : res (list (list R)) :=
  match P with
  | [] => Err ValueError
  | r :: rs =>
      let mns := fold_left (map2 nmin) rs r in
      let mxs := fold_left (map2 nmax) rs r in
      Ok (map (fun row => map2 (fun '(mn, mx) p => norm_by mn mx p) (combine mns mxs) row) P)
  end.

(** [np.arctan2(y, x)] on exact reals (zeros are +0). *)
Definition arctan2 (y x : R) : R :=
  if Rlt_dec 0 x then atan (y / x)
  else if Rlt_dec x 0 then
         (if Rle_dec 0 y then atan (y / x) + PI else atan (y / x) - PI)
  else if Rlt_dec 0 y then PI / 2
  else if Rlt_dec y 0 then - (PI / 2)
  else 0.

(** math_functions.py:41-63 [cart2pol(x, y)]. *)
Definition cart2pol (x y : R) : R * R := (sqrt (x ^ 2 + y ^ 2), arctan2 y x).

(** math_functions.py:103-129 [line_equation(P1, P2, x)] with numpy division. *)
Definition line_equation (P1 P2 : num * num) (x : num) : num :=
  let '(x1, y1) := P1 in
  let '(x2, y2) := P2 in
  nadd (nmul (ndiv (nsub y2 y1) (nsub x2 x1)) (nsub x x1)) y1.

(** math_functions.py:153, :155 [np.sqrt(np.nansum(np.square(v)) / v.size)]. *)
Definition rms_flat (v : list num) : num :=
  nsqrt (ndiv (nansum (map nsquare v)) (Fin (INR (length v)))).

(** math_functions.py:132-157 [rms(phase, circ=False)] on the flat array. *)
Definition rms_plain (phase : list (list num)) : num := rms_flat (concat phase).

(** math_functions.py:147-151: the boolean mask selecting the pixels outside
    the inscribed circle, shape (shape[1], shape[0]) as produced by meshgrid. *)
Definition circ_mask (n0 n1 : nat) : list (list bool) :=
  let x := linspace (-1) 1 n0 in
  let y := linspace (-1) 1 n1 in
  map2d (fun '(xx, yy) => Rltb (1 ^ 2) (xx ^ 2 + yy ^ 2)) (meshgrid x y).

(** Shape of a rectangular 2-D array given as rows. *)
Definition ncols {A} (P : list (list A)) : nat := match P with [] => O | r :: _ => length r end.

(** math_functions.py:132-157 [rms(phase, circ=True)].  Returns the value and the
    caller's array after the call: [phase[mask] = nan] (:151) writes into it.
    A mask whose shape differs from the array is an IndexError (numpy). *)
Definition rms_circ (phase : list (list num)) : res (num * list (list num)) :=
  let n0 := length phase in
  let n1 := ncols phase in
  if Nat.eqb n0 n1 then
    let phase' := map2 (map2 (fun (m : bool) p => if m then NaN else p)) (circ_mask n0 n1) phase in
    let phase_real := filter (fun p => negb (nisnan p)) (concat phase') in
    Ok (rms_flat phase_real, phase')
  else Err IndexError.

(** [np.nanmax], [np.nanmean], [np.nanstd] over the non-NaN values. *)
Definition drop_nan (l : list num) : list num := filter (fun p => negb (nisnan p)) l.
Definition nanmax (l : list num) : num :=
  match drop_nan l with [] => NaN | x :: t => fold_left nmax t x end.
Definition nanmean (l : list num) : num :=
  ndiv (nansum l) (Fin (INR (length (drop_nan l)))).
Definition nanstd (l : list num) : num :=
  let m := nanmean l in
  nsqrt (ndiv (nansum (map (fun a => nsquare (nsub a m)) l)) (Fin (INR (length (drop_nan l))))).

(** math_functions.py:209-214, the gridded branch of [snr]: [beam] has one row
    per v and one column per u.  Only shapes matching the axes are modelled. *)
Definition snr_grid (beam : list (list num)) (u v : list R) (centre radius : R) : num :=
  let mask := map2d (fun '(uu, vv) => Rltb ((uu - centre) ^ 2 + (vv - centre) ^ 2) (radius ^ 2)) (meshgrid u v) in
  let sel := map snd (filter fst (combine (concat mask) (concat beam))) in
  ndiv (nanmax (concat beam)) (nanstd sel).

(** math_functions.py:189-207, the scattered branch: cubic interpolation onto a
    300 x 300 grid spanning the data, then as above.  [griddata] stands for
    scipy.interpolate.griddata(method='cubic') on that grid. *)
Definition snr_scatter (griddata : list R -> list R -> list num -> list R -> list R -> list (list num))
    (beam : list num) (u v : list R) (centre radius : R) : res num :=
  bind (np_min (map Fin u)) (fun u0 => bind (np_max (map Fin u)) (fun u1 =>
  bind (np_min (map Fin v)) (fun v0 => bind (np_max (map Fin v)) (fun v1 =>
  let u_ng := linspace (nan_to_num u0) (nan_to_num u1) 300 in
  let v_ng := linspace (nan_to_num v0) (nan_to_num v1) 300 in
  Ok (snr_grid (griddata u v beam u_ng v_ng) u_ng v_ng centre radius))))).
