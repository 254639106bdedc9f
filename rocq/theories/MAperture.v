(** Model of pyoof/aperture/aperture.py. *)
From Flocq Require Import Core.Raux.
From Verif Require Import PyBase Num MZernike MMath.
From Coquelicot Require Import Complex.
Open Scope R_scope.

(** aperture.py:242 [n = int((np.sqrt(1 + 8 * K_coeff.size) - 3) / 2)]. *)
Definition order_of_size (size : nat) : Z :=
  Ztrunc ((sqrt (1 + 8 * INR size) - 3) / 2).

(** aperture.py:203-253 [wavefront(rho, theta, K_coeff)].  The result is the
    elementwise function of (rho, theta).  [.value] of Python's integer 0 (an
    empty sum) raises AttributeError. *)
Definition wavefront (K : list R) : res (R -> R -> R) :=
  let n := order_of_size (length K) in
  let nl := nl_list n in                                        (* :245 *)
  bind (mapM (fun i =>                                          (* :248-251 *)
          bind (py_get K i) (fun Ki =>
          bind (py_get nl i) (fun '(n', l') =>
          bind (zernike_U (PyInt n') (PyInt l')) (fun Unl =>
          Ok (fun rho theta => Ki * Unl rho theta))))) (seq 0 (length K)))
  (fun terms =>
     match terms with
     | [] => Err AttributeError
     | _ => Ok (fun rho theta => py_sum (map (fun t => t rho theta) terms))
     end).

(** numpy arrays live in memory: the heap is a list of buffers, an array is its
    index.  [hset h q i v] is [a[i] = v] on buffer q (IndexError out of range). *)
Definition heap := list (list R).
Definition hset (h : heap) (q i : nat) (v : R) : heap * res unit :=
  match py_set (nth q h []) i v with
  | Ok b => (set_nth h q b, Ok tt)
  | Err e => (h, Err e)
  end.

(** aperture.py:331-332 [_K_coeff[1] = 0; _K_coeff[2] = 0]. *)
Definition hset_tilt (h : heap) (q : nat) : heap * res unit :=
  match hset h q 1 0 with
  | (h', Ok _) => hset h' q 2 0
  | (h', Err e) => (h', Err e)
  end.

(** aperture.py:334-348, from the local coefficients to the map. *)
Definition phase_map (K : list R) (pr : R) (resolution : nat)
  : res (list R * list R * list (list R)) :=
  let x := linspace (- pr) pr resolution in
  let y := linspace (- pr) pr resolution in
  let grid := meshgrid x y in
  bind (wavefront K) (fun W =>
  let phi := map2d (fun '(xx, yy) =>
      let '(r, t) := cart2pol xx yy in
      (if Rltb (pr ^ 2) (xx ^ 2 + yy ^ 2) then 0 else W (r / pr) t) * 2 * PI) grid in
  Ok (x, y, phi)).

(** aperture.py:256-348 [phase(K_coeff, pr, piston, tilt, resolution)], with the
    memory before and after; [p] is the caller's [K_coeff]. *)
Definition phase_heap (h : heap) (p : nat) (pr : R) (piston tilt : bool) (resolution : nat)
  : heap * res (list R * list R * list (list R)) :=
  let q := length h in
  let h1 := h ++ [nth p h []] in                       (* :324 K_coeff.copy() *)
  match (if piston then (h1, Ok tt) else hset h1 q 0 0) with          (* :327-328 *)
  | (h2, Err e) => (h2, Err e)
  | (h2, Ok _) =>
      match (if tilt then (h2, Ok tt) else hset_tilt h2 q) with       (* :330-332 *)
      | (h3, Err e) => (h3, Err e)
      | (h3, Ok _) => (h3, phase_map (nth q h3 []) pr resolution)
      end
  end.

(** The value returned for a coefficient array [K]. *)
Definition phase (K : list R) (pr : R) (piston tilt : bool) (resolution : nat)
  : res (list R * list R * list (list R)) :=
  snd (phase_heap [K] 0 pr piston tilt resolution).

(** aperture.py:18-69 [e_rs(phase, circ=False)] and [circ=True]. *)
Definition nexp_negsq (r : num) : num :=
  match r with Fin x => Fin (exp (- x ^ 2)) | PInf | NInf => Fin 0 | NaN => NaN end.
Definition e_rs_plain (ph : list (list num)) : num := nexp_negsq (rms_plain ph).
Definition e_rs_circ (ph : list (list num)) : res (num * list (list num)) :=
  bind (rms_circ ph) (fun '(r, ph') => Ok (nexp_negsq r, ph')).

(** aperture.py:114-139 [illum_parabolic(x, y, I_coeff, pr)].  Exactly five
    coefficients can be unpacked.  [10 ** (c_dB / 20)] is [Rpower]; [pr] is
    non-zero in every use. *)
Definition illum_parabolic (I : list R) (pr : R) : res (R -> R -> R) :=
  match I with
  | [i_amp; c_dB; q; x0; y0] =>
      let c := Rpower 10 (c_dB / 20) in
      Ok (fun x y =>
        let r := sqrt ((x - x0) ^ 2 + (y - y0) ^ 2) in
        nan_to_num (nmul (Fin i_amp)
          (nadd (Fin c) (nmul (Fin (1 - c)) (npow (1 - (r / pr) ^ 2) q)))))
  | _ => Err ValueError
  end.

(** Python slices [I[:2]] and [I[-2:]] unpacked into two names. *)
Definition unpack2 (l : list R) : res (R * R) :=
  match l with [a; b] => Ok (a, b) | _ => Err ValueError end.
Definition last2 (l : list R) : list R := skipn (length l - 2) l.

(** aperture.py:175-192 [illum_gauss(x, y, I_coeff, pr)]. *)
Definition illum_gauss (I : list R) (pr : R) : res (R -> R -> R) :=
  bind (unpack2 (firstn 2 I)) (fun '(i_amp, c_dB) =>
  bind (unpack2 (last2 I)) (fun '(x0, y0) =>
  let sigma := Rpower 10 (c_dB / 20) in
  Ok (fun x y =>
    i_amp * sqrt (2 * PI * sigma ^ 2)
    * exp (- ((x - x0) ^ 2 + (y - y0) ^ 2) / (2 * (sigma * pr) ^ 2))))).

(** [telgeo = [block_dist, opd_func, pr]]. *)
Record telgeo := { block_dist : R -> R -> R; opd_func : R -> R -> R -> R; tel_pr : R }.

(** aperture.py:415-436 [aperture(x, y, I_coeff, K_coeff, d_z, wavel, illum_func,
    telgeo)], elementwise in (x, y).  [illum] is any illumination function. *)
Definition aperture (illum : list R -> R -> res (R -> R -> R)) (tel : telgeo)
    (I K : list R) (d_z wavel : R) : res (R -> R -> C) :=
  let pr := tel_pr tel in
  bind (wavefront K) (fun W =>
  bind (illum I pr) (fun Ea =>
  Ok (fun x y =>
    let '(r, t) := cart2pol x y in
    let B := block_dist tel x y in
    let delta := opd_func tel x y d_z in
    let phi := (W (r / pr) t + delta / wavel) * 2 * PI in
    (B * Ea x y * cos phi, B * Ea x y * sin phi)))).
