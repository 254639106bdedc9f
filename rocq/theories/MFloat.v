(** Model of zernike.R, zernike.U and aperture.wavefront in IEEE binary64: the
    same branches as MZernike.v and MAperture.v, with every numpy operation
    rounded.  Simplifications: no overflow (the numbers stay far below 2^1024
    for n <= 20; from n = 21 on the factorials no longer fit numpy integers and
    the code is not modelled), and the three library functions that IEEE 754
    does not fix are arguments. *)
From Verif Require Import PyBase Num MZernike MAperture MAct SFloat.
Open Scope R_scope.

(** [rho ** k], [np.cos] and [np.sin] of the numpy build. *)
Record libm := { lm_pow : Z -> R -> R; lm_cos : R -> R; lm_sin : R -> R }.

(** Python's [sum] of numpy values, from the left, starting with 0. *)
Definition sum64 (l : list R) : R := fold_left (fun acc t => fl (acc + t)) l 0.

(** zernike.py:66-67, one summand.  The products of Python integers are exact;
    numpy converts them to binary64 (correctly rounded) where they meet an array. *)
Definition R_term64 (lm : libm) (n a b s : Z) : res (R -> R) :=
  bind (py_factorial (n - s)) (fun f_ns =>
  bind (py_factorial s) (fun f_s =>
  bind (py_factorial (a - s)) (fun f_as =>
  bind (py_factorial (b - s)) (fun f_bs =>
  Ok (fun rho => fl (fl (fl (powerRZ (-1) s * f_ns) * lm_pow lm (n - 2 * s) rho) / fl (f_s * f_as * f_bs))))))).

(** zernike.py:14-71 [R(n, m, rho)]. *)
Definition zernike_R64 (lm : libm) (n m : Z) : res (R -> R) :=
  let a := ((n + m) / 2)%Z in                              (* :62 *)
  let b := ((n - m) / 2)%Z in                              (* :63 *)
  bind (mapM (R_term64 lm n a b) (range2 0 (b + 1)))       (* :65-69 *)
       (fun ts => Ok (fun rho => sum64 (map (fun t => t rho) ts))).

(** zernike.py:144-152, after the checks. *)
Definition zernike_U64_int (lm : libm) (n l : Z) : res (R -> R -> R) :=
  let m := Z.abs l in                                      (* :144 *)
  bind (zernike_R64 lm n m) (fun radial =>                 (* :145 *)
  if Z.ltb l 0                                             (* :147-150 *)
  then Ok (fun rho theta => fl (radial rho * lm_sin lm (fl (IZR m * theta))))
  else Ok (fun rho theta => fl (radial rho * lm_cos lm (fl (IZR m * theta))))).

(** zernike.py:74-152 [U(n, l, rho, theta)] with its argument checks. *)
Definition zernike_U64 (lm : libm) (n l : pyidx) : res (R -> R -> R) :=
  match as_int l with
  | None => Err TypeError                                  (* :137-140 *)
  | Some l' =>
      bind (py_ge0 n) (fun ge0 =>                          (* :141-142 *)
      match (if ge0 then as_int n else None) with
      | None => Err TypeError
      | Some n' => zernike_U64_int lm n' l'
      end)
  end.

(** aperture.py:203-253 [wavefront(rho, theta, K_coeff)]. *)
Definition wavefront64 (lm : libm) (K : list R) : res (R -> R -> R) :=
  let n := order64 (length K) in                                (* :242 *)
  let nl := nl_list n in                                        (* :245 *)
  bind (mapM (fun i =>                                          (* :248-251 *)
          bind (py_get K i) (fun Ki =>
          bind (py_get nl i) (fun '(n', l') =>
          bind (zernike_U64 lm (PyInt n') (PyInt l')) (fun Unl =>
          Ok (fun rho theta => fl (Ki * Unl rho theta)))))) (seq 0 (length K)))
  (fun terms =>
     match terms with
     | [] => Err AttributeError
     | _ => Ok (fun rho theta => sum64 (map (fun t => t rho theta) terms))
     end).

(** actuator.py:229-238 [transform], one pixel: a displacement in micrometres times the
    factor t in radians per millimetre, then [.to(apu.rad)], which multiplies by
    the binary64 number next to 1/1000. *)
Definition transform64 (t v : R) : R := fl (fl (t * v) * fl (1 / 1000)).

(** actuator.py:266-274 [itransform], one pixel: divided by the factor, [.to(apu.um)],
    which multiplies by 1000, and limited. *)
Definition itransform64 (lo hi t p : R) : num := limit lo hi (Fin (fl (fl (p / t) * 1000))).
