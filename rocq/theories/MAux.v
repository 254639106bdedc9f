(** Model of pyoof/aux_functions.py: reading an observation
    (extract_data_pyoof, extract_data_effelsberg) and uv_ratio, with the
    POSIX path functions they call. *)
From Coq Require Import String Ascii List.
From Verif Require Import PyBase Num MFs MAct.
Import ListNotations.
Open Scope R_scope.
Open Scope string_scope.
Open Scope list_scope.
Open Scope prog_scope.

(** str.rfind(c): index of the last occurrence, -1 when there is none. *)
Fixpoint rfind_from (c : ascii) (l : list ascii) (i last : Z) : Z :=
  match l with
  | [] => last
  | x :: t => rfind_from c t (i + 1) (if Ascii.eqb x c then i else last)
  end.
Definition rfind (c : ascii) (l : list ascii) : Z := rfind_from c l 0 (-1).

(** p[:i], p[i:] for 0 <= i. *)
Definition upto (i : Z) (l : list ascii) : list ascii := firstn (Z.to_nat i) l.
Definition after (i : Z) (l : list ascii) : list ascii := skipn (Z.to_nat i) l.

(** str.rstrip(c). *)
Fixpoint lstrip (c : ascii) (l : list ascii) : list ascii :=
  match l with x :: t => if Ascii.eqb x c then lstrip c t else l | [] => [] end.
Definition rstrip (c : ascii) (l : list ascii) : list ascii := rev (lstrip c (rev l)).

Definition slash : ascii := "/".
Definition dot : ascii := ".".

(** CPython Lib/posixpath.py split: head, tail = p[:i], p[i:] with
    i = p.rfind('/') + 1; [if head and head != '/' * len(head): head.rstrip('/')]. *)
Definition path_split (p : string) : string * string :=
  let l := list_ascii_of_string p in
  let i := (rfind slash l + 1)%Z in
  let head := upto i l in
  let tail := after i l in
  let head := if forallb (Ascii.eqb slash) head then head else rstrip slash head in
  (string_of_list_ascii head, string_of_list_ascii tail).

(** CPython Lib/genericpath.py _splitext(p, '/', None, '.'); the loop looks for a
    character other than a dot between the separator and the last dot. *)
Definition path_splitext (p : string) : string * string :=
  let l := list_ascii_of_string p in
  let sepIndex := rfind slash l in
  let dotIndex := rfind dot l in
  if (sepIndex <? dotIndex)%Z
     && existsb (fun c => negb (Ascii.eqb c dot)) (after (sepIndex + 1) (upto dotIndex l))
  then (string_of_list_ascii (upto dotIndex l), string_of_list_ascii (after dotIndex l))
  else (p, "").

(** p[:-5]. *)
Definition drop_last5 (p : string) : string :=
  let l := list_ascii_of_string p in string_of_list_ascii (firstn (length l - 5) l).

(** The file a path string names, seen from the directory [cwd].  Empty and "."
    components are skipped and ".." goes one level up (there are no links; that
    the directory left by ".." exists is not checked). *)
Definition is_absolute (p : string) : bool := starts_with "/" p.
Definition components (p : string) : list string :=
  filter (fun c => negb (String.eqb c "") && negb (String.eqb c ".")) (split_on slash p).
Definition enter (d : path) (c : string) : path := if String.eqb c ".." then removelast d else d ++ [c].
Definition resolve (cwd : path) (p : string) : path :=
  fold_left enter (components p) (if is_absolute p then [] else cwd).

(** header[key], data[column], hdulist[i] (keys are compared exactly; astropy
    ignores case). *)
Fixpoint assoc {A} (k : string) (l : list (string * A)) : option A :=
  match l with (k', v) :: t => if String.eqb k k' then Some v else assoc k t | [] => None end.
Definition card (k : string) (h : list (string * hval)) : res hval :=
  match assoc k h with Some v => Ok v | None => Err KeyError end.
(** header[key] * unit: a string times a unit is a TypeError. *)
Definition quantity (k : string) (h : list (string * hval)) : res R :=
  bind (card k h) (fun v => match v with HNum x => Ok x | HStr _ => Err TypeError end).
Definition table_of (f : fits_file) (i : nat) : res table_hdu := py_get (ff_tables f) (i - 1).
Definition column (f : fits_file) (c : string) (i : nat) : res (list num) :=
  bind (table_of f i) (fun t => match assoc c (th_cols t) with Some l => Ok l | None => Err KeyError end).
(** np.array([hdulist[i].data[c] for i in pos]): rows of different length are a
    ValueError (numpy 1.24 and later). *)
Definition stacked (l : list (list num)) : res (list (list num)) :=
  match l with
  | [] => Ok l
  | r :: t => if forallb (fun r' => Nat.eqb (length r') (length r)) t then Ok l else Err ValueError
  end.
Definition map_columns (f : fits_file) (c : string) (pos : list nat) : res (list (list num)) :=
  bind (mapM (column f c) pos) stacked.

Definition needed_keys : list string := ["FREQ"; "WAVEL"; "MEANEL"; "OBJECT"; "DATE_OBS"].
Definition has_key (h : list (string * hval)) (k : string) : bool :=
  match assoc k h with Some _ => true | None => false end.

(** fits.open: a file that is not FITS is an OSError. *)
Definition open_fits (p : path) : prog fits_file :=
  d <- callE (Read p) ;; match d with Fits f => Ret f | _ => Raise OSError end.

(** aux_functions.py:68-97. *)
Definition extract_data_pyoof (cwd : path) (pathfits : string) : prog observation :=
  if negb (String.eqb (snd (path_splitext pathfits)) ".fits") then Raise ValueError else
  hdulist <- open_fits (resolve cwd pathfits) ;;
  let pthto := fst (path_split pathfits) in
  let name := drop_last5 (snd (path_split pathfits)) in
  let h := ff_primary hdulist in
  if negb (forallb (has_key h) needed_keys) then Raise ValueError else
  freq <- lift (quantity "FREQ" h) ;;
  wavel <- lift (quantity "WAVEL" h) ;;
  meanel <- lift (quantity "MEANEL" h) ;;
  obs_object <- lift (card "OBJECT" h) ;;
  obs_date <- lift (card "DATE_OBS" h) ;;
  beam_data <- lift (map_columns hdulist "BEAM" [1; 2; 3]%nat) ;;
  u_data <- lift (map_columns hdulist "U" [1; 2; 3]%nat) ;;
  v_data <- lift (map_columns hdulist "V" [1; 2; 3]%nat) ;;
  d_z <- lift (mapM (fun i => bind (table_of hdulist i) (fun t => quantity "DZ" (th_header t))) [1; 2; 3]%nat) ;;
  Ret {| ob_name := name; ob_pthto := pthto; ob_object := obs_object; ob_date := obs_date;
         ob_freq := freq; ob_wavel := wavel; ob_d_z := d_z; ob_meanel := meanel;
         ob_beam := beam_data; ob_u := u_data; ob_v := v_data |}.

(** aux_functions.py:132-163.  A zero frequency gives an infinite wavelength; here
    the quotient is the total one of the reals. *)
Definition extract_data_effelsberg (cwd : path) (pathfits : string) : prog observation :=
  if negb (String.eqb (snd (path_splitext pathfits)) ".fits") then Raise ValueError else
  let pos := [3; 1; 2]%nat in
  hdulist <- open_fits (resolve cwd pathfits) ;;
  let h := ff_primary hdulist in
  freq <- lift (quantity "FREQ" h) ;;
  let wavel := speed_of_light / freq in
  meanel <- lift (quantity "MEANEL" h) ;;
  obs_object <- lift (card "OBJECT" h) ;;
  obs_date <- lift (card "DATE_OBS" h) ;;
  d_z <- lift (mapM (fun i => bind (table_of hdulist i) (fun t => quantity "DZ" (th_header t))) pos) ;;
  beam_data <- lift (map_columns hdulist "fnu" pos) ;;
  u_data <- lift (map_columns hdulist "DX" pos) ;;
  v_data <- lift (map_columns hdulist "DY" pos) ;;
  let pthto := fst (path_split pathfits) in
  let name := drop_last5 (snd (path_split pathfits)) in
  Ret {| ob_name := name; ob_pthto := pthto; ob_object := obs_object; ob_date := obs_date;
         ob_freq := freq; ob_wavel := wavel; ob_d_z := d_z; ob_meanel := meanel;
         ob_beam := beam_data; ob_u := u_data; ob_v := v_data |}.

(** u.max(), u.min(): ValueError on an empty array. *)
Definition arr_max (l : list R) : res R := match l with x :: t => Ok (fold_left Rmax t x) | [] => Err ValueError end.
Definition arr_min (l : list R) : res R := match l with x :: t => Ok (fold_left Rmin t x) | [] => Err ValueError end.

(** aux_functions.py:289-318 [uv_ratio]: (width, height).  u and v are given by
    their values in one unit each, [cu] and [cv] radians per unit; a quotient of
    quantities is decomposed, i.e. multiplied by cu / cv.  All v equal is a
    division by zero (numpy returns inf or nan with a warning): ZeroDivisionError
    here stands for that case. *)
Definition uv_ratio (cu cv : R) (u v : list R) : res (R * R) :=
  bind (arr_max u) (fun u1 => bind (arr_min u) (fun u0 =>
  bind (arr_max v) (fun v1 => bind (arr_min v) (fun v0 =>
  if Reqb (v1 - v0) 0 then Err ZeroDivisionError else
  let ratio := (u1 - u0) / (v1 - v0) * (cu / cv) in
  let height := 5 in
  let width := ratio * 2.25 * height in
  Ok (width, height))))).
