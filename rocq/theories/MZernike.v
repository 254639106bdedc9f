(** Model of pyoof/zernike/zernike.py and of the (n, l) enumeration shared by
    aperture.wavefront, aux_functions.store_data_ascii and the plot labels. *)
From Verif Require Import PyBase.
Open Scope R_scope.

(** zernike.py:62-69, one summand of the generator.  [rho] is modelled
    elementwise: the call returns the function applied to every array element. *)
Definition R_term (n a b s : Z) : res (R -> R) :=
  bind (py_factorial (n - s)) (fun f_ns =>
  bind (py_factorial s) (fun f_s =>
  bind (py_factorial (a - s)) (fun f_as =>
  bind (py_factorial (b - s)) (fun f_bs =>
  Ok (fun rho => powerRZ (-1) s * f_ns * powerRZ rho (n - 2 * s) / (f_s * f_as * f_bs)))))).

(** zernike.py:14-71 [R(n, m, rho)].  Simplification: exact reals; a negative
    power of rho = 0 (only reachable when a factorial fails anyway) is not
    distinguished from the ValueError of that factorial. *)
Definition zernike_R (n m : Z) : res (R -> R) :=
  let a := ((n + m) / 2)%Z in          (* :62  // is floor division *)
  let b := ((n - m) / 2)%Z in          (* :63 *)
  bind (mapM (R_term n a b) (range2 0 (b + 1)))     (* :65-69 *)
       (fun ts => Ok (fun rho => py_sum (map (fun t => t rho) ts))).

(** The Python values a caller may pass as [n] or [l]: int, bool (a subclass of
    int), float, numpy integer (not a subclass of int), anything not comparable
    with 0 (str, None, ...). *)
Inductive pyidx :=
| PyInt (z : Z) | PyBool (b : bool) | PyFloat (r : R) | PyNpInt (z : Z) | PyOther.

(** [isinstance(v, int)] together with the integer value. *)
Definition as_int (v : pyidx) : option Z :=
  match v with
  | PyInt z => Some z
  | PyBool b => Some (if b then 1 else 0)%Z
  | PyFloat _ | PyNpInt _ | PyOther => None
  end.

(** [v >= 0]; comparing a non-number with 0 raises TypeError. *)
Definition py_ge0 (v : pyidx) : res bool :=
  match v with
  | PyInt z | PyNpInt z => Ok (Z.leb 0 z)
  | PyBool _ => Ok true
  | PyFloat r => Ok (Rleb 0 r)
  | PyOther => Err TypeError
  end.

(** zernike.py:144-152, after the checks. *)
Definition zernike_U_int (n l : Z) : res (R -> R -> R) :=
  let m := Z.abs l in                                     (* :144 *)
  bind (zernike_R n m) (fun radial =>                     (* :145 *)
  if Z.ltb l 0                                            (* :147-150 *)
  then Ok (fun rho theta => radial rho * sin (IZR m * theta))
  else Ok (fun rho theta => radial rho * cos (IZR m * theta))).

(** zernike.py:74-152 [U(n, l, rho, theta)] with its argument checks. *)
Definition zernike_U (n l : pyidx) : res (R -> R -> R) :=
  match as_int l with
  | None => Err TypeError                                 (* :137-140 *)
  | Some l' =>
      bind (py_ge0 n) (fun ge0 =>                         (* :141-142 *)
      match (if ge0 then as_int n else None) with
      | None => Err TypeError
      | Some n' => zernike_U_int n' l'
      end)
  end.

(** aperture.py:245 (also aux_functions.py:269 and plot_routines.py:509, components swapped):
    [nl = [(i, j) for i in range(0, n + 1) for j in range(-i, i + 1, 2)]]. *)
Definition nl_list (n : Z) : list (Z * Z) :=
  flat_map (fun i => map (fun j => (i, j)) (range3 (- i) (i + 1) 2)) (range2 0 (n + 1)).
