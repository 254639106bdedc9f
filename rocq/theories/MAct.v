(** Model of pyoof/actuator/actuator.py, class EffelsbergActuator.  Displacements,
    their limits and the wavelength are in micrometres, dish radii in metres,
    phases in radians; astropy's unit conversions are exact here. *)
From Coq Require Import String Ascii DecimalString List.
From Flocq Require Import Core.Generic_fmt Core.Round_NE.
From Verif Require Import PyBase Num MMath MAperture MFs.
Import ListNotations.
Open Scope R_scope.
Open Scope string_scope.
Open Scope list_scope.
Open Scope prog_scope.

(** astropy.constants.c in metres per second. *)
Definition speed_of_light : R := 299792458.

(** actuator.py:57-73, the attributes that are arguments of the constructor;
    [sign] and [n_reflections] are numbers, [limits_amplitude] a pair (um). *)
Record actuator := {
  ac_frequency : R; ac_nrot : Z; ac_sign : R; ac_sr : R; ac_pr : R; ac_order : nat; ac_resolution : nat;
  ac_min : R; ac_max : R; ac_n_reflections : R }.

(** actuator.py:64, in micrometres. *)
Definition ac_wavel (o : actuator) : R := speed_of_light / ac_frequency o * 1000000.
(** actuator.py:70. *)
Definition ac_N_K (o : actuator) : nat := Nat.div ((ac_order o + 1) * (ac_order o + 2)) 2.
(** actuator.py:75-77, in radians per micrometre. *)
Definition ac_tfactor (o : actuator) : R := ac_sign o * 2 * ac_n_reflections o * PI / ac_wavel o.

(** actuator.py:80-86: [np.outer(R, f(theta)).reshape(-1)], in metres.  *)
Definition deg2rad (x : R) : R := x * (PI / 180).
Definition act_theta : list R := map deg2rad (linspace (15 / 2) (360 - 15 / 2) 24).
Definition act_R : list R := [3250 / 1000; 2600 / 1000; 1880 / 1000; 1210 / 1000].
Definition outer_flat (a b : list R) : list R := concat (map (fun x => map (fun y => x * y) b) a).
Definition act_x : list R := outer_flat act_R (map cos act_theta).
Definition act_y : list R := outer_flat act_R (map sin act_theta).

(** numpy.rot90 in a plane: flips, transposition and the four cases of [k % 4]
    (numpy/lib/function_base.py).  A map is the list of its rows. *)
Definition flip_rows {A} (m : list (list A)) : list (list A) := rev m.
Definition flip_cols {A} (m : list (list A)) : list (list A) := map (@rev A) m.
Fixpoint transpose_n {A} (c : nat) (m : list (list A)) : list (list A) :=
  match c with
  | O => []
  | S c' => flat_map (fun r => match r with [] => [] | x :: _ => [x] end) m
            :: transpose_n c' (map (@tl A) m)
  end.
Definition transpose {A} (m : list (list A)) : list (list A) := transpose_n (ncols m) m.
Definition rot90 {A} (k : Z) (m : list (list A)) : list (list A) :=
  match (k mod 4)%Z with
  | 0%Z => m
  | 1%Z => transpose (flip_cols m)
  | 2%Z => flip_cols (flip_rows m)
  | _ => flip_cols (transpose m)
  end.

(** A two or three dimensional array; [ndim == 3] selects the axes, actuator.py:225-228. *)
Inductive maps := Map2 (m : list (list num)) | Map3 (l : list (list (list num))).
Definition on_maps (f : list (list num) -> list (list num)) (a : maps) : maps :=
  match a with Map2 m => Map2 (f m) | Map3 l => Map3 (map f l) end.

(** actuator.py:205-238 [transform(actuator_sr)]. *)
Definition transform (o : actuator) (a : maps) : maps :=
  on_maps (fun m => map2d (nmul (Fin (ac_tfactor o))) (rot90 (ac_nrot o) m)) a.

(** actuator.py:272-274 and :345-347: two masked assignments. *)
Definition limit (lo hi : R) (x : num) : num :=
  let x1 := if ngt x (Fin hi) then Fin hi else x in
  if nlt x1 (Fin lo) then Fin lo else x1.

(** actuator.py:240-276 [itransform(phase_pr)]. *)
Definition itransform (o : actuator) (a : maps) : maps :=
  on_maps (fun m => map2d (limit (ac_min o) (ac_max o))
    (rot90 (- ac_nrot o) (map2d (fun p => ndiv p (Fin (ac_tfactor o))) m))) a.

(** An angle: an astropy quantity in degrees or radians, or a plain number. *)
Inductive angle := Deg (x : R) | Rad (x : R) | Plain (x : R).
Definition angle_value (a : angle) : R :=
  match a with Deg x => deg2rad x | Rad x => x | Plain x => x end.

(** actuator.py:173-203 [grav_deformation(g_coeff, alpha)]. *)
Definition grav_deformation (g : list R) (alpha : angle) : res R :=
  bind (py_get g 0) (fun g0 => bind (py_get g 1) (fun g1 => bind (py_get g 2) (fun g2 =>
  Ok (g0 * sin (angle_value alpha) + g1 * cos (angle_value alpha) + g2)))).

(** actuator.py:596-600: the default grid of radii. *)
Definition sr_radii (o : actuator) : list (list R) :=
  let x := linspace (- ac_sr o) (ac_sr o) (ac_resolution o) in
  map2d (fun '(xx, yy) => sqrt (xx ^ 2 + yy ^ 2)) (meshgrid x x).

(** actuator.py:603-604, one sample; numpy's division by zero and square root
    of a negative number. *)
Definition nsin (a : num) : num := match a with Fin x => Fin (sin x) | _ => NaN end.
Definition eac (a b r : R) : num :=
  let m := ndiv (nmul (Fin (b ^ 2 / a)) (nsqrt (Fin (1 - r ^ 2 / b ^ 2)))) (Fin r) in
  nsin (natan (nabs m)).
(** actuator.py:568-606 with the default [r], [a] and [b]. *)
Definition ellipsoidal_actuator_correction (o : actuator) : list (list num) :=
  map2d (eac (143050 / 10000) (73872 / 10000)) (sr_radii o).

(** actuator.py:515-566 [generate_phase_pr(g_coeff, alpha, eac)].  [phases *= c]
    multiplies every map of the stack, actuator.py:563-564. *)
Definition gen_coeffs (o : actuator) (g : list (list R)) (alpha : angle) : res (list R) :=
  mapM (fun k => bind (py_get g k) (fun gk => grav_deformation gk alpha)) (seq 0 (ac_N_K o)).
Definition gen_step (o : actuator) (g : list (list R)) (use_eac : bool) (phases : list (list (list num))) (a : nat) (alpha : angle)
  : res (list (list (list num))) :=
  bind (gen_coeffs o g alpha) (fun K =>
  bind (phase K (ac_pr o) false false (ac_resolution o)) (fun '(_, _, phi) =>
  bind (py_set phases a (map2d Fin phi)) (fun phases' =>
  Ok (if use_eac then map (fun m => map2 (map2 nmul) m (ellipsoidal_actuator_correction o)) phases' else phases')))).
Fixpoint gen_loop (o : actuator) (g : list (list R)) (use_eac : bool) (phases : list (list (list num))) (a : nat) (alphas : list angle)
  : res (list (list (list num))) :=
  match alphas with
  | [] => Ok phases
  | alpha :: t => bind (gen_step o g use_eac phases a alpha) (fun ph => gen_loop o g use_eac ph (S a) t)
  end.
Definition generate_phase_pr (o : actuator) (g : list (list R)) (alphas : list angle) (use_eac : bool)
  : res (list (list (list num))) :=
  let n := ac_resolution o in
  gen_loop o g use_eac (repeat (repeat (repeat (Fin 0) n) n) (length alphas)) 0 alphas.

(** scipy.optimize.least_squares(fun, x0).x: any function of the residual
    function and the starting point that returns as many numbers as it was
    given, or raises. *)
Definition lsq := (list R -> res (list R)) -> list R -> res (list R).

(** Array subtraction; unequal sizes do not broadcast (ValueError). *)
Definition vsub (a b : list R) : res (list R) :=
  if Nat.eqb (length a) (length b) then Ok (map2 Rminus a b) else Err ValueError.

(** actuator.py:388-396 and :401-409 [residual_phase]; the data are finite. *)
Definition residual_phase (o : actuator) (fem : bool) (data : list R) (K : list R) : res (list R) :=
  bind (phase (if fem then [0; 0; 0] ++ K else K) (ac_pr o) false (negb fem) (ac_resolution o)) (fun '(_, _, phi) =>
  vsub data (concat phi)).

(** actuator.py:358-429 [fit_zpoly(phase_pr, alpha, fem)]; numpy.zeros of a
    negative size raises ValueError; assigning a row of another length too. *)
Definition act_fit_zpoly (solve : lsq) (o : actuator) (phase_pr : list (list (list R))) (alphas : list angle) (fem : bool)
  : res (list (list R)) :=
  let N := ac_N_K o in
  if fem && Nat.ltb N 3 then Err ValueError else
  let n_fit := if fem then (N - 3)%nat else N in
  bind (mapM (fun a =>
    bind (py_get phase_pr a) (fun m =>
    bind (solve (residual_phase o fem (concat m)) (repeat (1 / 10) n_fit)) (fun x =>
    if Nat.eqb (length x) n_fit then Ok x else Err ValueError))) (seq 0 (length alphas))) (fun rows =>
  Ok (if Nat.eqb n_fit N then rows else map (fun r => [0; 0; 0] ++ r) rows)).

(** actuator.py:458-460 [residual_grav_deformation]. *)
Definition residual_grav (Knl : list R) (alphas : list angle) (g : list R) : res (list R) :=
  bind (mapM (grav_deformation g) alphas) (fun model => vsub Knl model).
(** actuator.py:431-478 [fit_grav_deformation(K_coeff_alpha, alpha)]. *)
Definition act_fit_grav (solve : lsq) (o : actuator) (K_alpha : list (list R)) (alphas : list angle) : res (list (list R)) :=
  mapM (fun N =>
    bind (mapM (fun row => py_get row N) K_alpha) (fun col =>
    bind (solve (residual_grav col alphas) [1 / 10; 1 / 10; 1 / 10]) (fun x =>
    if Nat.eqb (length x) 3 then Ok x else Err ValueError))) (seq 0 (ac_N_K o)).
(** actuator.py:480-513 [fit_all(phase_pr, alpha)]. *)
Definition act_fit_all (solve : lsq) (o : actuator) (phase_pr : list (list (list R))) (alphas : list angle)
  : res (list (list R) * list (list R)) :=
  bind (act_fit_zpoly solve o phase_pr alphas true) (fun K =>
  bind (act_fit_grav solve o K alphas) (fun g => Ok (g, K))).

(** scipy.interpolate.RectBivariateSpline(x, y, z, kx=5, ky=5): the interpolant,
    or an exception. *)
Definition spline := list R -> list R -> list (list num) -> res (R -> R -> num).

(** actuator.py:278-319 [interp_surface2rings(actuator_sr)]; axes in millimetres. *)
Definition interp_surface2rings (sp : spline) (o : actuator) (l : list (list (list num))) : res (list (list num)) :=
  let x := linspace (- ac_sr o * 1000) (ac_sr o * 1000) (ac_resolution o) in
  mapM (fun j =>
    bind (py_get l j) (fun m =>
    bind (sp x x (transpose m)) (fun f =>
    Ok (map (fun '(ax, ay) => f (ax * 1000) (ay * 1000)) (combine act_x act_y))))) (seq 0 11).

(** [np.around(x, 0).astype(int)]: round half to even; NaN and infinities become
    the smallest 64-bit integer (x86-64).  Values beyond 2^63 are not met: the
    limits have been applied. *)
Definition np_int (x : num) : Z :=
  match x with Fin r => ZnearestE r | _ => (- 2 ^ 63)%Z end.

Definition newline : string := String (Ascii.ascii_of_nat 10) "".
(** ['  '.join(row)]. *)
Definition join2 (l : list string) : string := String.concat "  " l.
(** actuator.py:353-355, the line of actuator [k] (0-based). *)
Definition lookup_line (table : list (list num)) (k : nat) : res string :=
  bind (mapM (fun row => py_get row k) table) (fun col =>
  Ok ("NR " ^^ dec (k + 1) ^^ " ffff " ^^ join2 (map (fun x => decZ (np_int x)) col) ^^ newline)).

(** actuator.py:350-356: lines are written one after the other; on an exception
    the file is closed with the lines already written. *)
Fixpoint lookup_lines (table : list (list num)) (ks : list nat) (acc : string) : string * res unit :=
  match ks with
  | [] => (acc ^^ "**ENDE**" ^^ newline, Ok tt)
  | k :: t => match lookup_line table k with
              | Ok l => lookup_lines table t (acc ^^ l)
              | Err e => (acc, Err e)
              end
  end.

(** actuator.py:321-356 [write_lookup(fname, actuator_sr)].  [np.int] is numpy's
    alias of [int] (removed in numpy 1.24, where the line raises AttributeError). *)
Definition write_lookup (sp : spline) (o : actuator) (fname : path) (a : maps) : prog unit :=
  table <- lift (match a with Map3 l => interp_surface2rings sp o l | Map2 m => Ok m end) ;;
  callE (OpenW fname) ;;;
  let '(text, r) := lookup_lines (map2d (limit (ac_min o) (ac_max o)) table) (seq 0 96) "" in
  call (Put fname (Text text)) ;;;
  lift r.

(** [s.split(sep)[0]]. *)
Fixpoint starts_with (p s : string) : bool :=
  match p, s with
  | "", _ => true
  | String a p', String b s' => Ascii.eqb a b && starts_with p' s'
  | _, _ => false
  end.
Fixpoint split_first (sep s : string) : string :=
  if starts_with sep s then "" else
  match s with "" => "" | String c s' => String c (split_first sep s') end.

(** Split at every occurrence of one character. *)
Fixpoint split_on (c : ascii) (s : string) : list string :=
  match s with
  | "" => [""]
  | String a t =>
      if Ascii.eqb a c then "" :: split_on c t
      else match split_on c t with w :: ws => String a w :: ws | [] => [String a ""] end
  end.
Definition is_empty (s : string) : bool := match s with "" => true | _ => false end.
(** The words of a line. *)
Definition words (s : string) : list string := filter (fun w => negb (is_empty w)) (split_on " " s).

(** astropy's ascii reader on headerless, blank separated text with [n] given
    column names: a string without a line break is taken for a file name; blank
    lines are skipped, every other line has [n] words, else
    InconsistentTableError (a ValueError). *)
Definition ascii_rows (n : nat) (s : string) : res (list (list string)) :=
  match split_on (Ascii.ascii_of_nat 10) s with
  | (_ :: _ :: _) as lines =>
      let rows := filter (fun r => negb (Nat.eqb (length r) 0)) (map words lines) in
      match rows with
      | [] => Err ValueError
      | _ => if forallb (fun r => Nat.eqb (length r) n) rows then Ok rows else Err ValueError
      end
  | _ => Err FileNotFoundError
  end.
(** A column of integers (the only columns the table holds); a column of text
    cannot be multiplied by a unit: TypeError. *)
Definition read_int (s : string) : res Z :=
  match NilZero.int_of_string s with Some d => Ok (Z.of_int d) | None => Err TypeError end.

(** actuator.py:125. *)
Definition alpha_lookup : list R := [7; 10; 20; 30; 32; 40; 50; 60; 70; 80; 90].

(** actuator.py:120-135: the eleven columns (um). *)
Definition lookup_columns (s : string) : res (list (list R)) :=
  bind (ascii_rows 14 (split_first "**ENDE**" s)) (fun rows =>
  mapM (fun j => mapM (fun row => bind (py_get row (3 + j)) (fun w => bind (read_int w) (fun z => Ok (IZR z)))) rows)
    (seq 0 11)).

(** actuator.py:166-169: assignment of a column to a row of 96 numbers; a column
    of length one is repeated, any other length raises ValueError. *)
Definition assign_96 (col : list R) : res (list R) :=
  if Nat.eqb (length col) 96 then Ok col
  else match col with [x] => Ok (repeat x 96) | _ => Err ValueError end.

Definition read_text (fname : path) : prog string :=
  d <- callE (Read fname) ;;
  match d with Text s => Ret s | Partial => Ret "" | _ => Raise ValueError end.

(** actuator.py:102-171 [read_lookup(interp=False)] with [path_lookup = fname]. *)
Definition read_lookup_plain (fname : path) : prog (list R * list (list R)) :=
  s <- read_text fname ;;
  lift (bind (lookup_columns s) (fun cols =>
        bind (mapM assign_96 cols) (fun table => Ok (alpha_lookup, table)))).

(** scipy.interpolate.griddata(points, values, xi, method='cubic'): a value or NaN
    for every grid point; ValueError when the numbers of points and values differ. *)
Definition griddata := list (R * R) -> list R -> R * R -> num.

(** actuator.py:137-164, one elevation: NaN and infinities removed, zero from the
    rim outwards. *)
Definition interp_map (gd : griddata) (o : actuator) (col : list R) : res (list (list R)) :=
  if Nat.eqb (length col) (length act_x) then
    let x := linspace (- ac_sr o) (ac_sr o) (ac_resolution o) in
    Ok (map2d (fun '(xx, yy) => if Rleb (ac_sr o ^ 2) (xx ^ 2 + yy ^ 2) then 0 else nan_to_num (gd (combine act_x act_y) col (xx, yy)))
          (meshgrid x x))
  else Err ValueError.
(** actuator.py:102-171 [read_lookup(interp=True)]. *)
Definition read_lookup_interp (gd : griddata) (o : actuator) (fname : path) : prog (list R * list (list (list R))) :=
  s <- read_text fname ;;
  lift (bind (lookup_columns s) (fun cols =>
        bind (mapM (interp_map gd o) cols) (fun ms => Ok (alpha_lookup, ms)))).

(** actuator.py:99-100: what the constructor reads and derives. *)
Definition act_init (gd : griddata) (o : actuator) (fname : path) : prog (list R * list (list (list R)) * maps) :=
  r <- read_lookup_interp gd o fname ;;
  Ret (fst r, snd r, transform o (Map3 (map (map2d Fin) (snd r)))).

(** numpy.sort. *)
Fixpoint insert (x : R) (l : list R) : list R :=
  match l with [] => [x] | y :: t => if Rleb x y then x :: l else y :: insert x t end.
Definition np_sort (l : list R) : list R := fold_right insert [] l.
(** actuator.py:634 and :644-645: the contour levels of [plot] for displacements, um. *)
Definition plot_levels (o : actuator) : list R :=
  np_sort (map (fun l => l * (ac_wavel o / (ac_sign o * 4 * PI))) (linspace (-2) 2 9)).
