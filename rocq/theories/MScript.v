(** Model of the programs in /repo/scripts: the batch of fits
    (pyoof_effelsberg.py), the same under MPI (pyoof_effelsberg_mpi.py), the
    simulation (pyoof_simulate_data.py) and the new look-up table
    (create_lookup.py).  What they print or show on screen is not modelled. *)
From Coq Require Import String Ascii List.
From Verif Require Import PyBase Num MZernike MMath MAperture MTel MFs MOut MAct MAux MTab MSim MPlot MActPlot.
Import ListNotations.
Open Scope R_scope.
Open Scope string_scope.
Open Scope list_scope.
Open Scope prog_scope.

(** [for x in l: f(x)]. *)
Fixpoint each {A} (f : A -> prog unit) (l : list A) : prog unit :=
  match l with [] => Ret tt | x :: t => f x ;;; each f t end.

(** ** pyoof_effelsberg.py, pyoof_effelsberg_mpi.py *)

(** One entry of the dictionary [telescope] (pyoof_effelsberg.py:12-45,
    pyoof_effelsberg_mpi.py:17-50): geometry, name of its opd function, name. *)
Record setup := { su_tel : telgeo; su_opd_name : string; su_name : string }.
Definition effelsberg (alpha : R) (name : string) : setup :=
  {| su_tel := {| block_dist := block_effelsberg (deg2rad alpha); opd_func := opd_effelsberg; tel_pr := 50 |};
     su_opd_name := "opd_effelsberg"; su_name := name |}.
Definition effelsberg_disk (sr : R) (name : string) : setup :=
  {| su_tel := {| block_dist := block_manual 50 sr 0 0; opd_func := opd_effelsberg; tel_pr := 50 |};
     su_opd_name := "opd_effelsberg"; su_name := name |}.

(** What differs between the two scripts, or is edited by their users:
    [illum_func], [telescope], [order_max], [work_dir]. *)
Record script := {
  sc_illum : res (list R -> R -> res (R -> R -> R)); sc_illum_name : string;
  sc_setups : list setup; sc_order_max : nat; sc_work_dir : path }.
(** pyoof_effelsberg.py as it stands; the directory is its user's. *)
Definition batch_script (w : path) : script := {|
  sc_illum := Ok illum_parabolic; sc_illum_name := "illum_parabolic";
  sc_setups := [effelsberg 10 "effelsberg (10 deg blockage)"]; sc_order_max := 5; sc_work_dir := w |}.
(** pyoof_effelsberg_mpi.py as it stands; pyoof.aperture has no [illum_pedestal]. *)
Definition mpi_script (w : path) : script := {|
  sc_illum := Err AttributeError; sc_illum_name := "illum_pedestal";
  sc_setups := [effelsberg 20 "effelsberg (20 deg blockage)"; effelsberg 10 "effelsberg (10 deg blockage)";
    effelsberg 0 "effelsberg (0 deg blockage)"; effelsberg_disk (325 / 100) "effelsberg (sub-reflector only blockage)";
    effelsberg_disk 0 "effelsberg (no blockage)"]; sc_order_max := 6; sc_work_dir := w |}.

(** The arguments of the call of fit_zpoly, pyoof_effelsberg.py:60-75 and
    pyoof_effelsberg_mpi.py:66-82.  Simplified: a coordinate that is not finite
    raises ValueError here (in the code least_squares raises it, after the
    directory was made); OBJECT and DATE_OBS are texts (a number: TypeError). *)
Definition real_of (x : num) : res R := match x with Fin r => Ok r | _ => Err ValueError end.
Definition text_of (h : hval) : res string := match h with HStr t => Ok t | HNum _ => Err TypeError end.
Definition fit_call (sc : script) (cwd : path) (ob : observation) (su : setup) : res fit_args :=
  bind (sc_illum sc) (fun illum =>
  bind (text_of (ob_object ob)) (fun obj => bind (text_of (ob_date ob)) (fun date =>
  bind (mapM (mapM real_of) (ob_u ob)) (fun u => bind (mapM (mapM real_of) (ob_v ob)) (fun v =>
  Ok {| fa_name := ob_name ob; fa_pthto := resolve cwd (ob_pthto ob); fa_object := obj; fa_date := date;
        fa_freq := ob_freq ob; fa_wavel := ob_wavel ob; fa_d_z := ob_d_z ob; fa_meanel := ob_meanel ob;
        fa_beam := ob_beam ob; fa_u := u; fa_v := v; fa_order_max := sc_order_max sc;
        fa_illum := illum; fa_illum_name := sc_illum_name sc;
        fa_tel := su_tel su; fa_opd_name := su_opd_name su; fa_tel_name := su_name su;
        fa_resolution := 256; fa_box_factor := 5; fa_fit_previous := true; fa_config_file := None;
        fa_make_plots := true; fa_work_dir := Some (sc_work_dir sc) |}))))).

(** pyoof_effelsberg.py:48-75, pyoof_effelsberg_mpi.py:53-82. *)
Definition compute_phase_error (orc : oracle) (sc : script) (cwd : path) (pathfits : string) : prog unit :=
  ob <- extract_data_effelsberg cwd pathfits ;;
  each (fun su => a <- lift (fit_call sc cwd ob su) ;; fit_zpoly orc a) (sc_setups sc).
(** pyoof_effelsberg.py:81-84; [files] is the answer of glob. *)
Definition batch (orc : oracle) (sc : script) (cwd : path) (files : list string) : prog unit :=
  each (compute_phase_error orc sc cwd) files.

(** numpy.array_split(l, k), k >= 1 (numpy/lib/shape_base.py): len % k sections of
    len // k + 1 elements, then sections of len // k. *)
Definition section_sizes (n k : nat) : list nat := repeat (n / k + 1)%nat (n mod k) ++ repeat (n / k)%nat (k - n mod k).
Fixpoint sections {A} (l : list A) (sizes : list nat) : list (list A) :=
  match sizes with [] => [] | n :: t => firstn n l :: sections (skipn n l) t end.
Definition array_split {A} (l : list A) (k : nat) : list (list A) := sections l (section_sizes (length l) k).
(** pyoof_effelsberg_mpi.py:85-93: the programs of the [size] processes (every
    process gets the same answer from glob). *)
Definition mpi_ranks (orc : oracle) (sc : script) (cwd : path) (files : list string) (size : nat) : list (prog unit) :=
  map (batch orc sc cwd) (array_split files size).

(** Any number of programs on one file system; the schedule says whose call is
    next (a number that is no process, or a process that has ended: no call). *)
Fixpoint set_nth {A} (i : nat) (x : A) (l : list A) : list A :=
  match l, i with [], _ => [] | _ :: t, O => x :: t | y :: t, S j => y :: set_nth j x t end.
Fixpoint interleave_all {A} (sched : list nat) (ps : list (prog A)) (s : fs) : list (prog A) * fs :=
  match sched with
  | [] => (ps, s)
  | i :: t => match nth_error ps i with
              | Some p => let '(p', s') := steps 1 p s in interleave_all t (set_nth i p' ps) s'
              | None => interleave_all t ps s
              end
  end.

(** ** pyoof_simulate_data.py *)

(** pyoof_simulate_data.py:11-24.  [si_work_dir] None is the current directory. *)
Definition sim_call (cwd : path) : sim_args := {|
  si_I := [1; - (145 / 10); 2; 0; 0]; si_K := repeat (1 / 10) 21; si_wavel := 93685143125 / 10000000000000;
  si_d_z := [- (22 / 1000); 0; 22 / 1000]; si_illum := illum_parabolic;
  si_tel := su_tel (effelsberg 10 "effelsberg"); si_noise := 0; si_resolution := 256; si_box_factor := 5; si_work_dir := cwd |}.
(** pyoof_simulate_data.py:33-67: simulate, read data_generated/test000.fits, plot
    it (resolution 256, degrees).  [a] are the arguments of the simulation. *)
Definition simulate_script (orc : sim_oracles) (griddata : list R -> list R -> list num -> list R -> list R -> list (list num))
    (fmt : R -> string) (a : sim_args) : prog (observation * figure) :=
  simulate_data_pyoof orc a ;;;
  ob <- extract_data_pyoof (si_work_dir a) "data_generated/test000.fits" ;;
  u <- lift (mapM (mapM real_of) (ob_u ob)) ;;
  v <- lift (mapM (mapM real_of) (ob_v ob)) ;;
  fig <- lift (plot_beam_data griddata fmt u v (ob_beam ob) (ob_d_z ob) 256 {| au_name := "deg"; au_per_rad := 180 / PI |} "test000" false) ;;
  Ret (ob, fig).

(** ** create_lookup.py *)

(** create_lookup.py:57-62: the rows used, by the in-focus signal-to-noise ratio
    and the last part of the name. *)
Definition is_offset (name : string) : bool := String.eqb (last (split_on "-" name) "") "offset".
Definition selected_row (r : tab_row) : bool := ngt (nth 1 (tr_snr r) NaN) (Fin 200) && negb (is_offset (tr_name r)).

(** create_lookup.py:71-76: the coefficients of every row, read from the directory
    <name>-000; a list of another length does not fit the row (ValueError). *)
Definition assign_row (N : nat) (l : list R) : res (list R) :=
  if Nat.eqb (length l) N then Ok l else match l with [x] => Ok (repeat x N) | _ => Err ValueError end.
Fixpoint read_coeffs (base : path) (n N : nat) (rows : list tab_row) : prog (list (list R)) :=
  match rows with
  | [] => Ret []
  | r :: t =>
      parfit <- read_parfit (base ++ [tr_name r ^^ "-000"; fitpar_name n]) ;;
      K <- lift (assign_row N (skipn 5 parfit)) ;;
      Ks <- read_coeffs base n N t ;;
      Ret (K :: Ks)
  end.

(** Everything external: time stamps accepted by astropy, the sorted table
    (create_lookup.py:47-51, unsorted when astropy cannot sort), least_squares,
    griddata, RectBivariateSpline, today's date, how a float is printed. *)
Record lookup_oracles := {
  lk_isot : string -> bool; lk_sort : list tab_row -> list tab_row; lk_solve : lsq;
  lk_griddata : griddata; lk_spline : spline; lk_today : string; lk_fmt : R -> string }.

(** create_lookup.py:83-88: elevations between the lowest and the highest one. *)
Definition alpha_list (o : actuator) (rows : list tab_row) : list R :=
  match map tr_meanel rows with
  | [] => []
  | x :: t => linspace (fold_left Rmin t x) (fold_left Rmax t x) (ac_resolution o)
  end.

(** create_lookup.py:107-139: one panel per coefficient from the fourth on; the
    points (elevation, coefficient, size), the curve of the gravity model, the label.
    There are 18 axes: one more panel is an IndexError.  Not modelled: layout, colours. *)
Record grav_panel := {
  gp_points : list (R * R * num); gp_x : list R; gp_y : list R; gp_label : string; gp_xlim : R * R; gp_xlabel : string; gp_ylabel : string }.
Definition gravfit_panel (o : actuator) (rows : list tab_row) (K_coeff_obs K_coeff_model : list (list R)) (j : nat) : res grav_panel :=
  bind (py_get (nl_list (Z.of_nat (ac_order o))) (j + 3)) (fun '(n, l) =>
  if Nat.ltb j 18 then Ok {|
    gp_points := map2 (fun r K => (tr_meanel r, nth (j + 3) K 0 * 2 * PI, ndiv (nth 1 (tr_snr r) NaN) (Fin 100))) rows K_coeff_obs;
    gp_x := alpha_list o rows; gp_y := map (fun K => nth (j + 3) K 0 * 2 * PI) K_coeff_model;
    gp_label := "K(" ^^ decZ n ^^ ", " ^^ decZ l ^^ ")"; gp_xlim := (7, 90);
    gp_xlabel := if Nat.ltb 14 j then "Elevation angle ($\alpha$) deg" else "";
    gp_ylabel := if Nat.eqb (j mod 3) 0 then "Phase rad" else "" |}
  else Err IndexError).
Definition gravfit (o : actuator) (rows : list tab_row) (K_coeff_obs K_coeff_model : list (list R)) : res (list grav_panel) :=
  mapM (gravfit_panel o rows K_coeff_obs K_coeff_model) (seq 0 (ac_N_K o - 3)).

(** actuator.py:631-632: [plot] without data shows the phases of the object's own
    look-up file. *)
Definition plot_own (fmt : R -> string) (o : actuator) (st : list R * list (list (list R)) * maps) (title : string) : res figure :=
  match snd st with Map3 l => act_plot fmt o true l (16, 11 / 2) (Some title) | Map2 _ => Err IndexError end.

(** create_lookup.py:23-186 with the object [o] (order n), the answer [runs] of glob,
    [base] = path_pyoof_out, [old] the present look-up file, [dir] = path2save.
    Simplified: the date does not change while the script runs. *)
Definition lookup_name (k : lookup_oracles) : string := "FEM_OOF_Table_" ^^ lk_today k ^^ ".dat".
Definition lookup_figures (k : lookup_oracles) : list string :=
  ["phase_pr_model_" ^^ lk_today k ^^ ".pdf"; "phase_pr_lookup.pdf"; "phases_pr_correction_" ^^ lk_today k ^^ ".pdf";
   "gravfit_" ^^ lk_today k ^^ ".pdf"].
Record lookup_plots := { lp_model : figure; lp_lookup : figure; lp_correction : figure; lp_gravfit : list grav_panel }.
Definition create_lookup_plots (k : lookup_oracles) (o : actuator) (runs : list path) (base old dir : path) : prog lookup_plots :=
  actuators <- act_init (lk_griddata k) o old ;;
  tab <- table_pyoof_out (lk_isot k) runs (ac_order o) ;;
  let rows := filter selected_row (lk_sort k (snd tab)) in
  K_coeff_obs <- read_coeffs base (ac_order o) (ac_N_K o) rows ;;
  g_coeff <- lift (act_fit_grav (lk_solve k) o K_coeff_obs (map (fun r => Deg (tr_meanel r)) rows)) ;;
  (match rows with [] => Raise ValueError | _ => Ret tt end) ;;;
  K_coeff_model <- lift (mapM (fun alpha => gen_coeffs o g_coeff (Deg alpha)) (alpha_list o rows)) ;;
  phases_pr_model <- lift (generate_phase_pr o g_coeff (map Deg alpha_lookup) true) ;;
  fig_model <- lift (act_plot (lk_fmt k) o true phases_pr_model (16, 11 / 2) (Some "Phase-error model")) ;;
  fig_lookup <- lift (plot_own (lk_fmt k) o actuators "Phase-error look-up table") ;;
  fig_gravfit <- lift (gravfit o rows K_coeff_obs K_coeff_model) ;;
  b <- call (Isdir dir) ;;
  (if b then Ret tt else makedirs dir true) ;;;
  lookup <- read_lookup_plain old ;;
  actuator_sr_model <- lift (match itransform o (Map3 phases_pr_model) with
                             | Map3 l => interp_surface2rings (lk_spline k) o l | Map2 _ => Err IndexError end) ;;
  write_lookup (lk_spline k) o (dir ++ [lookup_name k]) (Map2 (map2 (map2 nsub) (map2d Fin (snd lookup)) actuator_sr_model)) ;;;
  actuators_fem_oof <- act_init (lk_griddata k) o (dir ++ [lookup_name k]) ;;
  fig_correction <- lift (plot_own (lk_fmt k) o actuators_fem_oof "Phase-error look-up table minus phase-error model (FEM + OOF corrections)") ;;
  write_pdfs dir (lookup_figures k) ;;;
  Ret {| lp_model := fig_model; lp_lookup := fig_lookup; lp_correction := fig_correction; lp_gravfit := fig_gravfit |}.
Definition create_lookup (k : lookup_oracles) (o : actuator) (runs : list path) (base old dir : path) : prog unit :=
  create_lookup_plots k o runs base old dir ;;; Ret tt.
