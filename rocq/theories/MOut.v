(** Model of the part of pyoof that stores results: aux_functions.py
    store_data_csv, store_data_ascii, str2LaTeX, core.py fit_zpoly and
    plot_routines.py plot_fit_path (its files). *)
From Coq Require Import String Ascii List.
From Verif Require Import PyBase Num MZernike MMath MAperture MRad MCore MFs.
Import ListNotations.
Open Scope R_scope.
Open Scope string_scope.
Open Scope list_scope.

(** The list [(j, i) for i in range(0, n + 1) for j in range(-i, i + 1, 2)],
    aux_functions.py:269: pairs (l, n). *)
Definition ln_list (n : nat) : list (Z * Z) :=
  flat_map (fun i => map (fun j => (j, i)) (range3 (- i) (i + 1) 2)) (range2 0 (Z.of_nat n + 1)).

(** aux_functions.py:273-275 params_names. *)
Definition param_names (n : nat) : list string :=
  ["i_amp"; "c_dB"; "q"; "x_0"; "y_0"]
  ++ map (fun '(L, N) => "K(" ^^ decZ N ^^ ", " ^^ decZ L ^^ ")") (ln_list n).

(** [Table(data=[names, solution, init], ...)]: columns of different length are a
    ValueError. *)
Fixpoint zip3 (a : list string) (b c : list R) : list (string * R * R) :=
  match a, b, c with
  | x :: a', y :: b', z :: c' => (x, y, z) :: zip3 a' b' c'
  | _, _, _ => []
  end.
Definition make_table (names : list string) (sol init : list R) : res doc :=
  if Nat.eqb (length sol) (length names) && Nat.eqb (length init) (length names)
  then Ok (Params (zip3 names sol init)) else Err ValueError.

(** aux_functions.py:242-286 [store_data_ascii]; fitpar_n{n}.csv. *)
Definition fitpar_name (n : nat) : string := "fitpar_n" ^^ dec n ^^ ".csv".
Definition store_data_ascii (name_dir : path) (order : nat) (sol init : list R) : prog unit :=
  tab <- lift (make_table (param_names order) sol init) ;;
  write_file (name_dir ++ [fitpar_name order]) tab.

(** aux_functions.py:192-239 [store_data_csv]. *)
Definition csv_headers : list string :=
  ["Normalized beam"; "u vector radians"; "v vector radians"; "Residual";
   "Jacobian"; "Gradient"; "Phase-error radians";
   "Variance-Covariance matrix (first row fitted parameters idx)";
   "Correlation matrix (first row fitted parameters idx)"].
Definition csv_names (order : nat) : list string :=
  ["beam_data.csv"; "u_data.csv"; "v_data.csv";
   "res_n" ^^ dec order ^^ ".csv"; "jac_n" ^^ dec order ^^ ".csv";
   "grad_n" ^^ dec order ^^ ".csv"; "phase_n" ^^ dec order ^^ ".csv";
   "cov_n" ^^ dec order ^^ ".csv"; "corr_n" ^^ dec order ^^ ".csv"].

(** [for fname, header, file in zip(...)]: np.savetxt. *)
Fixpoint save_all (name : string) (name_dir : path) (l : list (string * string * arr)) : prog unit :=
  match l with
  | [] => Ret tt
  | (fname, header, data) :: t =>
      write_file (name_dir ++ [fname]) (Csv (header ^^ " " ^^ name) data) ;;; save_all name name_dir t
  end.
Definition store_data_csv (name : string) (name_dir : path) (order : nat) (save_to_csv : list arr) : prog unit :=
  let all := combine (combine (csv_names order) csv_headers) save_to_csv in
  let all3 := combine (combine (skipn 3 (csv_names order)) (skipn 3 csv_headers)) (skipn 3 save_to_csv) in
  save_all name name_dir (if Nat.eqb order 1 then all else all3).

(** aux_functions.py:166-189 [str2LaTeX]: every '_' becomes the two characters
    backslash, underscore. *)
Fixpoint str2LaTeX (s : string) : string :=
  match s with
  | EmptyString => EmptyString
  | String c t =>
      if Ascii.eqb c "_" then String "\" (String "_" (str2LaTeX t)) else String c (str2LaTeX t)
  end.

(** What the two lists data_info and data_obs and the keyword arguments of
    fit_zpoly carry (core.py:306-310).  work_dir and the directory part of the
    FITS path are absolute; [name] is one path component. *)
Record fit_args := {
  fa_name : string; fa_pthto : path; fa_object : string; fa_date : string;
  fa_freq : R; fa_wavel : R; fa_d_z : list R; fa_meanel : R;
  fa_beam : list (list num); fa_u : list (list R); fa_v : list (list R);
  fa_order_max : nat;
  fa_illum : list R -> R -> res (R -> R -> R); fa_illum_name : string;
  fa_tel : telgeo; fa_opd_name : string; fa_tel_name : string;
  fa_resolution : nat; fa_box_factor : R;
  fa_fit_previous : bool; fa_config_file : option path; fa_make_plots : bool; fa_work_dir : option path }.

(** scipy.optimize.OptimizeResult: x, fun, jac, grad. *)
Record lsq_out := { lo_x : list R; lo_fun : list R; lo_jac : list (list R); lo_grad : list R }.

(** External computations: least_squares(fun, x0, bounds), co_matrices (modelled
    separately in MCoMat.v), griddata (inside snr), np.round(., 2) and
    whether drawing the figures of one order succeeds. *)
Record oracle := {
  or_lsq : (list R -> res (list R)) -> list R -> list R -> list R -> res lsq_out;
  or_comat : list R -> list (list R) -> nat -> res (list (list R) * list (list R));
  or_griddata : list R -> list R -> list num -> list R -> list R -> list (list num);
  or_round2 : num -> num;
  or_draw : nat -> res unit }.

(** pyoof/data/config_params.yml. *)
Definition default_config : config := {|
  cf_bound_max := [10; -1; 2; 1 / 100; 1 / 100; 5; 5; 5]%R;
  cf_bound_min := [0; -25; 1; - (1 / 100); - (1 / 100); -5; -5; -5]%R;
  cf_excluded := [1; 2; 3; 4; 5]%Z;
  cf_fixed := [1; - (29 / 2); 7 / 5; 0; 0; 0; 0; 0]%R;
  cf_init := [1 / 100; -10; 3 / 2; 0; 0; 1 / 10; 1 / 10; 1 / 10]%R |}.

(** core.py:392-400.  A file that is not a configuration with the five keys
    is a KeyError here; the code notices when it first uses the missing key. *)
Definition load_config (f : option path) : prog config :=
  match f with
  | None => Ret default_config
  | Some p =>
      d <- callE (Read p) ;;
      match d with Config c => Ret c | _ => Raise KeyError end
  end.

(** core.py:403-409: the first free directory name-000 ... name-100. *)
Definition run_dir (base : path) (name : string) (j : nat) : path := (base ++ [name ^^ "-" ^^ pad3 j])%list.
Fixpoint choose_dir (base : path) (name : string) (js : list nat) (last : option path) : prog path :=
  match js with
  | [] => match last with Some d => Ret d | None => Raise UnboundLocalError end
  | j :: t =>
      let d := run_dir base name j in
      b <- call (Exists d) ;;
      if b then choose_dir base name t (Some d)
      else makedirs d true ;;; Ret d
  end.
Definition pick_dir (work_dir : path) (name : string) : prog path :=
  let base := (work_dir ++ ["pyoof_out"])%list in
  b <- call (Exists base) ;;
  (if b then Ret tt else makedirs base true) ;;;
  choose_dir base name (seq 0 101) None.

(** core.py:411-415, the three snr values ([beam_data[i, ...]] raises IndexError
    for fewer than three maps); centre .04 and radius .01 degrees. *)
Definition snr_values (orc : oracle) (a : fit_args) : res (list num) :=
  mapM (fun i =>
    bind (py_get (fa_beam a) i) (fun b =>
    bind (py_get (fa_u a) i) (fun u =>
    bind (py_get (fa_v a) i) (fun v =>
    bind (snr_scatter (or_griddata orc) b u v (4 / 100 * PI / 180) (1 / 100 * PI / 180)) (fun x =>
    Ok (or_round2 orc x)))))) [0; 1; 2]%nat.

(** numpy [a.reshape(3, -1)] of a 1-D array. *)
Definition reshape3 (l : list R) : res (list (list R)) :=
  let n := length l in
  if Nat.eqb (n mod 3) 0 then
    let m := (n / 3)%nat in Ok [firstn m l; firstn m (skipn m l); skipn (m + m) l]
  else Err ValueError.

(** [np.vstack((header, m))]: ValueError unless all rows have one length. *)
Definition vstack (header : list R) (m : list (list R)) : res (list (list R)) :=
  if forallb (fun r => Nat.eqb (length r) (length header)) m then Ok (header :: m) else Err ValueError.

Definition nums (l : list R) : list num := map Fin l.
Definition nums2 (m : list (list R)) : arr := A2 (map nums m).

(** [Table.read(fitpar)['parfit']]. *)
Definition read_parfit (p : path) : prog (list R) :=
  d <- callE (Read p) ;;
  match d with Params rows => Ret (map (fun '(_, fit, _) => fit) rows) | _ => Raise KeyError end.

(** plot_routines.py:645-754 [plot_fit_path(save=True)]: the files it reads and
    writes; the figures are not modelled. *)
Definition pdf_names (n : nat) : list string :=
  ["fitbeam_n" ^^ dec n ^^ ".pdf"; "fitphase_n" ^^ dec n ^^ ".pdf"; "residual_n" ^^ dec n ^^ ".pdf";
   "cov_n" ^^ dec n ^^ ".pdf"; "corr_n" ^^ dec n ^^ ".pdf"] ++ (if Nat.eqb n 1 then ["obsbeam.pdf"] else []).
Fixpoint read_all (dir : path) (l : list string) : prog unit :=
  match l with [] => Ret tt | f :: t => callE (Read (dir ++ [f])%list) ;;; read_all dir t end.
Fixpoint write_pdfs (dir : path) (l : list string) : prog unit :=
  match l with [] => Ret tt | f :: t => write_file (dir ++ [f])%list Pdf ;;; write_pdfs dir t end.
Definition plot_fit_path (orc : oracle) (name_dir : path) (n : nat) : prog unit :=
  let plots := (name_dir ++ ["plots"])%list in
  b <- call (Exists plots) ;;
  (if b then Ret tt else makedirs plots false) ;;;
  read_all name_dir ([fitpar_name n; "pyoof_info.yml"; "beam_data.csv"; "res_n" ^^ dec n ^^ ".csv";
    "u_data.csv"; "v_data.csv"; "cov_n" ^^ dec n ^^ ".csv"; "corr_n" ^^ dec n ^^ ".csv"]) ;;;
  lift (or_draw orc n) ;;;
  write_pdfs plots (pdf_names n).

(** core.py:449-602: one pass of [for order in range(1, order_max + 1)]. *)
Definition n_coeff (n : nat) : nat := ((n + 1) * (n + 2) / 2)%nat.
Definition start_params (c : config) (fit_previous : bool) (name_dir : path) (n : nat) : prog (list R) :=
  let N_K := n_coeff n in
  if fit_previous && negb (Nat.eqb n 1) then
    let N_K_previous := (n * (n + 1) / 2)%nat in
    prev <- read_parfit (name_dir ++ [fitpar_name (n - 1)])%list ;;
    Ret (prev ++ repeat (1 / 10)%R (N_K - N_K_previous))%list
  else Ret (cf_init c ++ repeat (1 / 10)%R (N_K - 3))%list.

Definition fit_order (orc : oracle) (a : fit_args) (c : config) (snrs : list num) (name_dir : path) (n : nat) : prog unit :=
  let N_K := n_coeff n in
  let ex := cf_excluded c in
  params_init <- start_params c (fa_fit_previous a) name_dir n ;;
  x0 <- lift (np_delete params_init ex) ;;
  lo <- lift (np_delete (cf_bound_min c ++ repeat (-5)%R (N_K - 3))%list ex) ;;
  hi <- lift (np_delete (cf_bound_max c ++ repeat 5%R (N_K - 3))%list ex) ;;
  let fun_ p := residual (fa_illum a) (fa_tel a) (cf_fixed c) ex N_K p (fa_beam a) (fa_u a) (fa_v a)
                  (fa_d_z a) (fa_wavel a) (fa_resolution a) (fa_box_factor a) in
  out <- lift (or_lsq orc fun_ x0 lo hi) ;;
  params_solution <- lift (params_complete (cf_fixed c) ex N_K (lo_x out)) ;;
  res_optim <- lift (reshape3 (lo_fun out)) ;;
  cc <- lift (or_comat orc (lo_fun out) (lo_jac out) (length x0)) ;;
  idx <- lift (np_delete (map INR (seq 0 (N_K + 5))) ex) ;;
  cov_ptrue <- lift (vstack idx (fst cc)) ;;
  cor_ptrue <- lift (vstack idx (snd cc)) ;;
  ph <- lift (phase (skipn 5 params_solution) (tel_pr (fa_tel a)) false false 1000) ;;
  store_data_ascii name_dir n params_solution params_init ;;;
  (if Nat.eqb n 1 then
     write_file (name_dir ++ ["pyoof_info.yml"])%list (Info {|
       ri_tel_name := fa_tel_name a; ri_tel_opd := fa_opd_name a; ri_pr := tel_pr (fa_tel a); ri_name := fa_name a;
       ri_object := fa_object a; ri_date := fa_date a; ri_d_z := fa_d_z a; ri_wavel := fa_wavel a; ri_freq := fa_freq a;
       ri_illum := fa_illum_name a; ri_meanel := fa_meanel a; ri_resolution := fa_resolution a;
       ri_box_factor := fa_box_factor a; ri_snr := snrs |})
   else Ret tt) ;;;
  store_data_csv (fa_name a) name_dir n
    [A2 (fa_beam a); nums2 (fa_u a); nums2 (fa_v a); nums2 res_optim; nums2 (lo_jac out);
     A1 (nums (lo_grad out)); nums2 (snd ph); nums2 cov_ptrue; nums2 cor_ptrue] ;;;
  (if fa_make_plots a then plot_fit_path orc name_dir n else Ret tt).

Fixpoint fit_orders (orc : oracle) (a : fit_args) (c : config) (snrs : list num) (name_dir : path) (l : list nat) : prog unit :=
  match l with
  | [] => Ret tt
  | n :: t => fit_order orc a c snrs name_dir n ;;; fit_orders orc a c snrs name_dir t
  end.

(** core.py:306-616 [fit_zpoly].  Not modelled: printing, timing, and the
    re-reading of fitpar_n{n}.csv for display when verbose is not 0. *)
Definition fit_zpoly (orc : oracle) (a : fit_args) : prog unit :=
  let work_dir := match fa_work_dir a with Some d => d | None => fa_pthto a end in
  c <- load_config (fa_config_file a) ;;
  name_dir <- pick_dir work_dir (fa_name a) ;;
  snrs <- lift (snr_values orc a) ;;
  fit_orders orc a c snrs name_dir (seq 1 (fa_order_max a)).
