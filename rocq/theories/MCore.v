(** Model of pyoof/core.py:24-303: residual_true, residual, params_complete. *)
From Verif Require Import PyBase Num MMath MAperture MRad.
From Coquelicot Require Import Complex.
Open Scope R_scope.

(** scipy [RegularGridInterpolator(points=(u, v), values=P.T, method='linear')]:
    searchsorted(grid, x) - 1, clipped to [0, size - 2]. *)
Definition find_index (grid : list R) (x : R) : nat :=
  Nat.min (length (filter (fun g => Rltb g x) grid) - 1) (length grid - 2).
Definition in_bounds (grid : list R) (x : R) : bool :=
  Rleb (nth 0 grid 0) x && Rleb x (nth (length grid - 1) grid 0).

(** One evaluation of the interpolator at (x, y); [vals] are the samples with row
    index v and column index u (the code passes the transpose, core.py:115). *)
Definition interp2 (u v : list R) (vals : list (list R)) (x y : R) : R :=
  let i := find_index u x in
  let j := find_index v y in
  let tx := (x - nth i u 0) / (nth (i + 1) u 0 - nth i u 0) in
  let ty := (y - nth j v 0) / (nth (j + 1) v 0 - nth j v 0) in
  let P a b := nth a (nth b vals []) 0 in
  (1 - tx) * (1 - ty) * P i j + (1 - tx) * ty * P i (j + 1)%nat
  + tx * (1 - ty) * P (i + 1)%nat j + tx * ty * P (i + 1)%nat (j + 1)%nat.

(** Evaluation at a list of points; a point outside the grid is a ValueError,
    and so are u and v lists of different length. *)
Definition interp_points (u v : list R) (vals : list (list R)) (xs ys : list R) : res (list R) :=
  if Nat.eqb (length xs) (length ys) then
    if forallb (in_bounds u) xs && forallb (in_bounds v) ys
    then Ok (map2 (interp2 u v vals) xs ys)
    else Err ValueError
  else Err ValueError.

(** [beam_model[i, ...] = row]: a row of another length is a ValueError unless it
    has one element, which is broadcast. *)
Definition assign_row (beam_model : list (list R)) (i : nat) (row : list R) : res (list (list R)) :=
  bind (py_get beam_model i) (fun old =>
  if Nat.eqb (length row) (length old) then py_set beam_model i row
  else match row with
       | [x] => py_set beam_model i (repeat x (length old))
       | _ => Err ValueError
       end).

(** core.py:97-129: the model beam of map [i] at the data points (interp=True). *)
Definition model_row (illum : list R -> R -> res (R -> R -> R)) (tel : telgeo) (params : list R)
    (u_data v_data : list (list R)) (d_z : list R) (wavel : R) (N : nat) (bf : R) (i : nat) : res (list R) :=
  let I := firstn 5 params in
  let K := skipn 5 params in
  bind (py_get d_z i) (fun dz =>
  bind (radiation_pattern illum tel I K dz wavel N bf) (fun '(u, v, F) =>
  bind (py_get u_data i) (fun xs =>
  bind (py_get v_data i) (fun ys =>
  interp_points u v (power_pattern F) xs ys)))).

(** The loop [for i in range(3)], core.py:96-126. *)
Fixpoint fill_rows (row : nat -> res (list R)) (idx : list nat) (beam_model : list (list R)) : res (list (list R)) :=
  match idx with
  | [] => Ok beam_model
  | i :: t => bind (row i) (fun r => bind (assign_row beam_model i r) (fun m => fill_rows row t m))
  end.

(** core.py:94-131 [residual_true(params, beam_data, u_data, v_data, d_z, wavel,
    illum_func, telgeo, resolution, box_factor, interp=True)]. *)
Definition residual_true (illum : list R -> R -> res (R -> R -> R)) (tel : telgeo) (params : list R)
    (beam_data : list (list num)) (u_data v_data : list (list R)) (d_z : list R) (wavel : R) (N : nat) (bf : R)
  : res (list R) :=
  let zeros := map (map (fun _ => 0)) beam_data in
  bind (fill_rows (model_row illum tel params u_data v_data d_z wavel N bf) [0; 1; 2]%nat zeros) (fun beam_model =>
  bind (norm_rows beam_data) (fun data =>
  bind (norm_rows (map (map Fin) beam_model)) (fun model =>
  Ok (concat (map2 (map2 Rminus) data model))))).

(** interp=False (core.py:125-126): the data are an array of 2 or 3 dimensions. *)
Inductive ndarray := Flat (a : list (list num)) | Cube (a : list (list (list num))).

(** numpy broadcasting of two dimensions. *)
Definition bcast_ok (a b : nat) : bool := Nat.eqb a b || Nat.eqb a 1 || Nat.eqb b 1.

(** [norm(P, axis=1)] of an array of shape (a, b, c) (math_functions.py:35-36):
    [P.min(1)] has shape (a, c), [reshape(-1, 1)] makes it (a c, 1), and
    P - that needs b and a c to be broadcastable.  The value in that case is not
    needed below and left as the first row group. *)
Definition norm_cube (P : list (list (list num))) : res (list (list (list R))) :=
  let a := length P in
  let b := match P with [] => O | M :: _ => length M end in
  let c := match P with [] => O | M :: _ => ncols M end in
  if bcast_ok b (a * c) then mapM norm_rows P else Err ValueError.

(** [beam_model[i, ...] = power_pattern] for [beam_model = zeros_like(beam_data)]. *)
Definition assign_power (beam_data : ndarray) (i n : nat) : res unit :=
  match beam_data with
  | Flat a => bind (py_get a i) (fun row => if Nat.eqb n 1 then Ok tt else Err ValueError)
  | Cube a => bind (py_get a i) (fun M =>
      if bcast_ok n (length M) && bcast_ok n (ncols M) && (Nat.eqb n (length M) || Nat.eqb n 1) && (Nat.eqb n (ncols M) || Nat.eqb n 1)
      then Ok tt else Err ValueError)
  end.

(** residual_true with interp=False: only which exception it raises.  [Ok tt]
    stands for a normal return. *)
Definition residual_true_nointerp (illum : list R -> R -> res (R -> R -> R)) (tel : telgeo) (params : list R)
    (beam_data : ndarray) (d_z : list R) (wavel : R) (N : nat) (bf : R) : res unit :=
  let step i := bind (py_get d_z i) (fun dz =>
    bind (radiation_pattern illum tel (firstn 5 params) (skipn 5 params) dz wavel N bf) (fun '(u, v, F) =>
    assign_power beam_data i (length F))) in
  bind (step 0%nat) (fun _ => bind (step 1%nat) (fun _ => bind (step 2%nat) (fun _ =>
  match beam_data with
  | Flat a => bind (norm_rows a) (fun _ => Ok tt)
  | Cube a => bind (norm_cube a) (fun _ => Ok tt)
  end))).

(** [np.insert(l, i, v)] for a non-negative index: IndexError beyond the end. *)
Definition np_insert (l : list R) (i : nat) (v : R) : res (list R) :=
  if Nat.leb i (length l) then Ok (firstn i l ++ v :: skipn i l) else Err IndexError.

(** core.py:278-303 [params_complete(params, N_K_coeff, config_params)];
    [fixed] and [excluded] are the two entries of the configuration. *)
Definition params_complete (fixed : list R) (excluded : list Z) (N_K : nat) (params : list R) : res (list R) :=
  match fixed with
  | [i_amp_f; c_dB_f; q_f; x0_f; y0_f; K0_f; K1_f; K2_f] =>
      if Nat.eqb (length params) (5 + N_K) then Ok params
      else
        let step (acc : res (list R)) (i : Z) :=
          bind acc (fun p =>
          match i with
          | 0%Z => np_insert p 0 i_amp_f
          | 1%Z => np_insert p 1 c_dB_f
          | 2%Z => np_insert p 2 q_f
          | 3%Z => np_insert p 3 x0_f
          | 4%Z => np_insert p 4 y0_f
          | 5%Z => np_insert p 5 K0_f
          | 6%Z => np_insert p 6 K1_f
          | 7%Z => np_insert p 7 K2_f
          | _ => Ok p
          end) in
        fold_left step excluded (Ok params)
  | _ => Err ValueError
  end.

(** core.py:226-242 [residual(params, N_K_coeff, ..., config_params)]. *)
Definition residual (illum : list R -> R -> res (R -> R -> R)) (tel : telgeo) (fixed : list R) (excluded : list Z)
    (N_K : nat) (params : list R) (beam_data : list (list num)) (u_data v_data : list (list R))
    (d_z : list R) (wavel : R) (N : nat) (bf : R) : res (list R) :=
  bind (params_complete fixed excluded N_K params) (fun params_res =>
  residual_true illum tel params_res beam_data u_data v_data d_z wavel N bf).

(** [np.delete(params, excluded)] (core.py:467, :479-480): a negative index counts
    from the end, an index out of bounds is an IndexError. *)
Definition np_index (n : nat) (i : Z) : res nat :=
  if (Z.leb 0 i && Z.ltb i (Z.of_nat n))%bool then Ok (Z.to_nat i)
  else if (Z.leb (- Z.of_nat n) i && Z.ltb i 0)%bool then Ok (Z.to_nat (i + Z.of_nat n))
  else Err IndexError.
Fixpoint delete_at {A} (off : nat) (ex : list nat) (l : list A) : list A :=
  match l with
  | [] => []
  | x :: t => if existsb (Nat.eqb off) ex then delete_at (S off) ex t else x :: delete_at (S off) ex t
  end.
Definition np_delete {A} (l : list A) (excluded : list Z) : res (list A) :=
  bind (mapM (np_index (length l)) excluded) (fun ex => Ok (delete_at 0 ex l)).
