(** Specification vocabulary for fit_zpoly runs. *)
From Coq Require Import String Ascii List Sorted.
From Verif Require Import PyBase Num MZernike MAperture MRad MCore MFs MOut SOut.
Import ListNotations.
Open Scope R_scope.
Open Scope string_scope.
Open Scope list_scope.

(** work_dir, or the directory of the FITS file when it is None. *)
Definition fit_dir (a : fit_args) : path := match fa_work_dir a with Some d => d | None => fa_pthto a end.
(** Fewer than 101 runs of this name exist. *)
Definition free_number (a : fit_args) (s : fs) : Prop := exists j, (j <= 100)%nat /\ s (numbered (fit_dir a) (fa_name a) j) = None.
Definition unaltered (s s' : fs) : Prop := forall q, s q <> None -> s' q = s q.

(** The optimizer returns as many numbers as it was given. *)
Definition sized_answers (orc : oracle) : Prop :=
  forall f x0 lo hi out, or_lsq orc f x0 lo hi = Ok out -> length (lo_x out) = length x0.
(** Every external computation returns, with results of the right size. *)
Definition cooperative (orc : oracle) : Prop :=
  (forall f x0 lo hi, exists out, or_lsq orc f x0 lo hi = Ok out /\ length (lo_x out) = length x0 /\ (length (lo_fun out) mod 3 = 0)%nat) /\
  (forall r J k, exists cov cor, or_comat orc r J k = Ok (cov, cor) /\
     (forall row, In row cov -> length row = k) /\ (forall row, In row cor -> length row = k)) /\
  (forall n, or_draw orc n = Ok tt).
(** Eight values per key; the excluded indices increase and stay below 8. *)
Definition valid_config (c : config) : Prop :=
  length (cf_init c) = 8%nat /\ length (cf_fixed c) = 8%nat /\ length (cf_bound_min c) = 8%nat /\ length (cf_bound_max c) = 8%nat /\
  exists ex, cf_excluded c = map Z.of_nat ex /\ Sorted lt ex /\ forall e, In e ex -> (e < 8)%nat.
(** [c] is the configuration the run uses. *)
Definition configured (a : fit_args) (s : fs) (c : config) : Prop :=
  match fa_config_file a with None => c = default_config | Some p => s p = Some (File (Config c)) end.
(** Three beam maps, three non-empty rows of coordinates. *)
Definition three_maps (a : fit_args) : Prop :=
  (3 <= length (fa_beam a))%nat /\ (3 <= length (fa_u a))%nat /\ (3 <= length (fa_v a))%nat /\
  forall i, (i < 3)%nat -> nth i (fa_u a) [] <> [] /\ nth i (fa_v a) [] <> [].
(** A usable work directory: it exists and pyoof_out is not a file. *)
Definition usable (w : path) (s : fs) : Prop :=
  s w = Some Dir /\ (s (w ++ ["pyoof_out"]) = None \/ s (w ++ ["pyoof_out"]) = Some Dir).

(** The same external computations with another optimizer. *)
Definition with_lsq (orc : oracle) (g : (list R -> res (list R)) -> list R -> list R -> list R -> res lsq_out) : oracle :=
  {| or_lsq := g; or_comat := or_comat orc; or_griddata := or_griddata orc; or_round2 := or_round2 orc; or_draw := or_draw orc |}.

(** Two runs: where a run writes, its configuration file, and independence. *)
Definition region (a : fit_args) (q : path) : Prop := exists j, (j <= 100)%nat /\ below (numbered (fit_dir a) (fa_name a) j) q.
Definition base_of (a : fit_args) : path := fit_dir a ++ ["pyoof_out"].
Definition cfg_of (a : fit_args) (q : path) : Prop := fa_config_file a = Some q.
Definition separate (a b : fit_args) : Prop :=
  (forall j k, ~ above (numbered (fit_dir a) (fa_name a) j) (numbered (fit_dir b) (fa_name b) k)) /\
  (forall j k, ~ above (numbered (fit_dir b) (fa_name b) k) (numbered (fit_dir a) (fa_name a) j)).
Definition config_clear (a b : fit_args) : Prop := forall q, cfg_of a q -> ~ region b q /\ q <> base_of b.
Definition no_file_100 (a : fit_args) (s : fs) : Prop :=
  s (numbered (fit_dir a) (fa_name a) 100) = None \/ s (numbered (fit_dir a) (fa_name a) 100) = Some Dir.
(** How a program that has nothing left to do ended. *)
Definition finished {A} (p : prog A) : option (res A) := match p with Ret a => Some (Ok a) | Raise e => Some (Err e) | Do _ _ _ => None end.

(** A row of a stored fitpar table: name, fitted value, starting value. *)
Definition parname (r : string * R * R) : string := fst (fst r).
Definition parfit (r : string * R * R) : R := snd (fst r).
Definition parinit (r : string * R * R) : R := snd r.
Definition fitpar_rows (s : fs) (d : path) (n : nat) (rows : list (string * R * R)) : Prop :=
  s (d ++ ["fitpar_n" ^^ dec n ^^ ".csv"]) = Some (File (Params rows)).
(** Number of Zernike coefficients of order n. *)
Definition coeffs (n : nat) : nat := ((n + 1) * (n + 2) / 2)%nat.
(** The function minimised at order n: the residual of the three maps. *)
Definition misfit (a : fit_args) (c : config) (n : nat) (p : list R) : res (list R) :=
  residual (fa_illum a) (fa_tel a) (cf_fixed c) (cf_excluded c) (coeffs n) p (fa_beam a) (fa_u a) (fa_v a)
    (fa_d_z a) (fa_wavel a) (fa_resolution a) (fa_box_factor a).
(** The optimizer was called at order n from these starting values and bounds and answered [out]. *)
Definition answered (orc : oracle) (a : fit_args) (c : config) (n : nat) (start : list R) (out : lsq_out) : Prop :=
  exists x0 lo hi,
    np_delete start (cf_excluded c) = Ok x0 /\
    np_delete (cf_bound_min c ++ repeat (-5) (coeffs n - 3)) (cf_excluded c) = Ok lo /\
    np_delete (cf_bound_max c ++ repeat 5 (coeffs n - 3)) (cf_excluded c) = Ok hi /\
    or_lsq orc (misfit a c n) x0 lo hi = Ok out.
(** The questions of this fit are answered, with results of the right size, and the
    figures can be drawn. *)
Definition responsive (orc : oracle) (a : fit_args) (c : config) : Prop :=
  (forall n x0 lo hi, (1 <= n <= fa_order_max a)%nat -> (length x0 + length (cf_excluded c) = 5 + coeffs n)%nat ->
     length lo = length x0 -> length hi = length x0 -> exists out cov cor,
     or_lsq orc (misfit a c n) x0 lo hi = Ok out /\ length (lo_x out) = length x0 /\ (length (lo_fun out) mod 3 = 0)%nat /\
     or_comat orc (lo_fun out) (lo_jac out) (length x0) = Ok (cov, cor) /\
     (forall row, In row cov -> length row = length x0) /\ (forall row, In row cor -> length row = length x0)) /\
  (fa_make_plots a = true -> forall n, (1 <= n <= fa_order_max a)%nat -> or_draw orc n = Ok tt).

(** Where order n starts: from the configuration, or from the stored solution of
    order n - 1 with 0.1 for the new coefficients. *)
Definition started (a : fit_args) (c : config) (s : fs) (d : path) (n : nat) (start : list R) : Prop :=
  (fa_fit_previous a = false \/ n = 1%nat -> start = cf_init c ++ repeat (1 / 10) (coeffs n - 3)) /\
  (fa_fit_previous a = true -> (2 <= n)%nat -> exists rows', fitpar_rows s d (n - 1) rows' /\ start = map parfit rows' ++ repeat (1 / 10) (n + 1)).

(** A stored array, with its header line. *)
Definition csv_file (s : fs) (d : path) (f header : string) (x : arr) : Prop := s (d ++ [f]) = Some (File (Csv header x)).
(** What pyoof_info.yml must say about the run. *)
Definition describes (i : run_info) (a : fit_args) (snrs : list num) : Prop :=
  ri_name i = fa_name a /\ ri_object i = fa_object a /\ ri_date i = fa_date a /\ ri_d_z i = fa_d_z a /\
  ri_wavel i = fa_wavel a /\ ri_freq i = fa_freq a /\ ri_meanel i = fa_meanel a /\ ri_illum i = fa_illum_name a /\
  ri_tel_name i = fa_tel_name a /\ ri_tel_opd i = fa_opd_name a /\ ri_pr i = tel_pr (fa_tel a) /\
  ri_resolution i = fa_resolution a /\ ri_box_factor i = fa_box_factor a /\ ri_snr i = snrs.
(** A directory that holds only files, apart from plots. *)
Definition plain_dir (s : fs) (d : path) : Prop :=
  s d = Some Dir /\ (s (d ++ ["plots"]) = None \/ s (d ++ ["plots"]) = Some Dir) /\ forall r, r <> [] -> r <> ["plots"] -> s (d ++ r) <> Some Dir.

(** On the way from [s] to [sf]: everything is as before, half-written, or final. *)
Definition under_way (s sf s' : fs) : Prop := forall q, s' q = s q \/ s' q = Some (File Partial) \/ s' q = sf q.
