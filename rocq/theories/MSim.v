(** Model of pyoof/simulate_data.py:16-210 [simulate_data_pyoof]. *)
From Coq Require Import String Ascii List.
From Verif Require Import PyBase Num MZernike MMath MAperture MRad MFs MAct.
Import ListNotations.
Open Scope R_scope.
Open Scope string_scope.
Open Scope list_scope.
Open Scope prog_scope.

(** Arguments, SI units. *)
Record sim_args := {
  si_I : list R; si_K : list R; si_wavel : R; si_d_z : list R;
  si_illum : list R -> R -> res (R -> R -> R); si_tel : telgeo;
  si_noise : R; si_resolution : nat; si_box_factor : R;
  si_work_dir : path }.  (* None is os.getcwd(): the current directory is an ordinary argument here *)

(** What the program takes from outside: storing a value in a FITS column of
    format 'E' (float32), numpy.random.normal(0, scale, shape) by map, row and
    column, and Time.now().isot. *)
Record sim_oracles := {
  so_f32 : R -> num; so_normal : R -> nat -> nat -> nat -> R; so_now : string }.

(** simulate_data.py:95-103: plim_u[1] = plim_v[1] = 8 * 1.22 * wavel / (2 * pr). *)
Definition sim_limit (a : sim_args) : R := 8 * (1.22 * si_wavel a / (2 * tel_pr (si_tel a))).

(** numpy reshape(k, k): a ValueError unless there are k * k values. *)
Fixpoint chunks {A} (k n : nat) (l : list A) : list (list A) :=
  match n with O => [] | S m => firstn k l :: chunks k m (skipn k l) end.
Definition reshape_square {A} (k : nat) (l : list A) : res (list (list A)) :=
  if Nat.eqb (length l) (k * k) then Ok (chunks k k l) else Err ValueError.

(** simulate_data.py:118-144.  The samples whose power was not set to NaN; the
    samples strictly inside the box; the three arrays are cut to squares whose
    side is int(sqrt(number of the former)).  No sample of the power is itself NaN. *)
Definition trim (lim : R) (u v : list R) (P : list (list R)) : res (list (list R) * list (list R) * list (list R)) :=
  let pl0 := - lim in
  let pl1 := lim in
  let cells := combine (concat (meshgrid u v)) (concat P) in
  let kept := filter (fun '((uu, vv), _) => negb (Rltb uu pl0) && negb (Rltb pl1 uu) && negb (Rltb vv pl0) && negb (Rltb pl1 vv)) cells in
  let power_trim_1d := map snd kept in
  let size_trim := Nat.sqrt (length power_trim_1d) in
  let box := filter (fun '((uu, vv), _) => Rltb pl0 uu && Rltb uu pl1 && Rltb pl0 vv && Rltb vv pl1) cells in
  bind (reshape_square size_trim power_trim_1d) (fun power_trim =>
  bind (reshape_square size_trim (map (fun c => fst (fst c)) box)) (fun u_trim =>
  bind (reshape_square size_trim (map (fun c => snd (fst c)) box)) (fun v_trim =>
  Ok (u_trim, v_trim, power_trim)))).

(** simulate_data.py:107-144, one defocus. *)
Definition sim_map (a : sim_args) (z : R) : res (list (list R) * list (list R) * list (list R)) :=
  bind (radiation_pattern (si_illum a) (si_tel a) (si_I a) (si_K a) z (si_wavel a) (si_resolution a) (si_box_factor a))
    (fun '(u, v, F) => trim (sim_limit a) u v (power_pattern F)).

(** simulate_data.py:147-153: add noise to the i-th map. *)
Definition indexed {A} (l : list A) : list (nat * A) := combine (seq 0 (length l)) l.
Definition add_noise (orc : sim_oracles) (noise : R) (i : nat) (P : list (list R)) : list (list R) :=
  if Reqb noise 0 then P
  else map (fun '(r, row) => map (fun '(c, x) => x + so_normal orc noise i r c) (indexed row)) (indexed P).

(** simulate_data.py:155-176, 199-204: the i-th table. *)
Definition sim_names : list string := ["MINUS OOF"; "ZERO OOF"; "PLUS OOF"].
Definition sim_table (orc : sim_oracles) (noise : R) (i : nat) (z : R) (m : list (list R) * list (list R) * list (list R)) : table_hdu :=
  let '(u, v, P) := m in
  {| th_name := nth i sim_names "";
     th_header := [("DZ", HNum z)];
     th_cols := [("U", map (so_f32 orc) (concat u)); ("V", map (so_f32 orc) (concat v));
                 ("BEAM", map (so_f32 orc) (concat (add_noise orc noise i P)))] |}.

(** simulate_data.py:87-90. *)
Definition check_d_z (d_z : list R) : res unit :=
  bind (py_get d_z 0) (fun z0 => if Rltb 0 z0 then Err ValueError else
  bind (py_get d_z 1) (fun z1 => if negb (Reqb z1 0) then Err ValueError else
  bind (py_get d_z 2) (fun z2 => if Rltb z2 0 then Err ValueError else Ok tt))).

Definition sim_tables (orc : sim_oracles) (a : sim_args) : res (list table_hdu) :=
  mapM (fun i => bind (py_get (si_d_z a) i) (fun z => bind (sim_map a z) (fun m => Ok (sim_table orc (si_noise a) i z m)))) [0; 1; 2]%nat.

(** simulate_data.py:186-198: the file with number j. *)
Definition sim_stem (j : nat) : string := "test" ^^ pad3 j.
Definition sim_file (a : sim_args) (j : nat) : path := si_work_dir a ++ ["data_generated"; sim_stem j ^^ ".fits"].
Definition sim_fits (orc : sim_oracles) (a : sim_args) (tables : list table_hdu) (j : nat) : fits_file :=
  {| ff_primary := [("FREQ", HNum (speed_of_light / si_wavel a)); ("WAVEL", HNum (si_wavel a)); ("MEANEL", HNum 0);
                    ("OBJECT", HStr (sim_stem j)); ("DATE_OBS", HStr (so_now orc));
                    ("COMMENT", HStr "Generated data pyoof package"); ("AUTHOR", HStr "Tomas Cassanelli")];
     ff_tables := tables |}.

(** astropy HDUList.writeto(name), overwrite=False: an existing file is an
    OSError (astropy lets an existing empty file pass; not modelled), else the
    file is opened and written. *)
Definition writeto (p : path) (d : doc) : prog unit :=
  b <- call (Exists p) ;;
  if b then Raise OSError else write_file p d.

(** simulate_data.py:182-210: the first free number of 0..100; when there is none
    [return pyoof_fits] finds the name unbound. *)
Fixpoint sim_store (orc : sim_oracles) (a : sim_args) (tables : list table_hdu) (js : list nat) : prog fits_file :=
  match js with
  | [] => Raise UnboundLocalError
  | j :: t =>
      b <- call (Exists (sim_file a j)) ;;
      if b then sim_store orc a tables t
      else
        let f := sim_fits orc a tables j in
        writeto (sim_file a j) (Fits f) ;;;
        Ret f
  end.

(** simulate_data.py:16-210.  A zero wavelength makes the frequency infinite;
    here the quotient is the total one of the reals. *)
Definition simulate_data_pyoof (orc : sim_oracles) (a : sim_args) : prog fits_file :=
  lift (check_d_z (si_d_z a)) ;;;
  tables <- lift (sim_tables orc a) ;;
  let dir := si_work_dir a ++ ["data_generated"] in
  b <- call (Exists dir) ;;
  (if b then Ret tt else makedirs dir false) ;;;
  sim_store orc a tables (seq 0 101).
