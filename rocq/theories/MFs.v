(** A file system and programs over it.  Generic vocabulary: nothing here is
    specific to pyoof except the list of document kinds the package stores. *)
From Coq Require Import String Ascii DecimalString DecimalNat DecimalZ List.
From Verif Require Import PyBase Num.
Import ListNotations.
Open Scope R_scope.
Open Scope string_scope.
Open Scope list_scope.

Notation "a ^^ b" := (String.append a b) (at level 60, right associativity) : string_scope.

(** Absolute path, as the list of its components ([[]] is the root). *)
Definition path := list string.
Definition path_eq_dec : forall p q : path, {p = q} + {p <> q} := list_eq_dec string_dec.
Definition parent (p : path) : path := removelast p.

(** A 1-D or 2-D numeric array given to numpy.savetxt. *)
Inductive arr := A1 (l : list num) | A2 (m : list (list num)).

(** pyoof/data/config_params.yml and user configuration files: the five keys. *)
Record config := {
  cf_bound_max : list R; cf_bound_min : list R; cf_excluded : list Z; cf_fixed : list R; cf_init : list R }.

(** pyoof_info.yml, core.py:568-584 (quantities in SI units, meanel in degrees). *)
Record run_info := {
  ri_tel_name : string; ri_tel_opd : string; ri_pr : R; ri_name : string; ri_object : string; ri_date : string;
  ri_d_z : list R; ri_wavel : R; ri_freq : R; ri_illum : string; ri_meanel : R; ri_resolution : nat; ri_box_factor : R;
  ri_snr : list num }.

(** A FITS header value, a binary table HDU and a file (only what the package
    reads or writes). *)
Inductive hval := HNum (x : R) | HStr (s : string).
Record table_hdu := { th_name : string; th_header : list (string * hval); th_cols : list (string * list num) }.
Record fits_file := { ff_primary : list (string * hval); ff_tables : list table_hdu }.

(** What extract_data_pyoof and extract_data_effelsberg return: the lists data_info
    and data_obs (aux_functions.py:93-97, 160-163). *)
Record observation := {
  ob_name : string; ob_pthto : string; ob_object : hval; ob_date : hval;
  ob_freq : R; ob_wavel : R; ob_d_z : list R; ob_meanel : R;
  ob_beam : list (list num); ob_u : list (list num); ob_v : list (list num) }.

(** File contents. [Partial] is a file that was opened for writing and whose
    data have not (all) been flushed. *)
Inductive doc :=
| Partial
| Params (rows : list (string * R * R))        (* fitpar table: parname, parfit, parinit *)
| Csv (header : string) (data : arr)           (* numpy.savetxt *)
| Info (i : run_info)
| Config (c : config)
| Fits (f : fits_file)
| Pdf
| Text (s : string).

Inductive node := Dir | File (d : doc).
Definition fs := path -> option node.

Definition upd (s : fs) (p : path) (n : node) : fs := fun q => if path_eq_dec q p then Some n else s q.

(** System calls.  Links and removal by somebody else are not modelled; calls that
    fail (permissions, a full disk) are in MFault.v. *)
Inductive op : Type -> Type :=
| Exists (p : path) : op bool                  (* os.path.exists *)
| Isdir (p : path) : op bool                   (* os.path.isdir *)
| Mkdir (p : path) : op (res unit)             (* os.mkdir *)
| OpenW (p : path) : op (res unit)             (* open(p, 'w'): create or truncate *)
| Put (p : path) (d : doc) : op unit           (* write everything and close *)
| Read (p : path) : op (res doc).

Definition exec {X} (o : op X) (s : fs) : X * fs :=
  match o in op X return X * fs with
  | Exists p => (match s p with Some _ => true | None => false end, s)
  | Isdir p => (match s p with Some Dir => true | _ => false end, s)
  | Mkdir p =>
      match s p with
      | Some _ => (Err FileExistsError, s)
      | None => match s (parent p) with
                | Some Dir => (Ok tt, upd s p Dir)
                | Some (File _) => (Err NotADirectoryError, s)
                | None => (Err FileNotFoundError, s)
                end
      end
  | OpenW p =>
      match s p with
      | Some Dir => (Err OSError, s)
      | Some (File _) => (Ok tt, upd s p (File Partial))
      | None => match s (parent p) with
                | Some Dir => (Ok tt, upd s p (File Partial))
                | Some (File _) => (Err NotADirectoryError, s)
                | None => (Err FileNotFoundError, s)
                end
      end
  | Put p d => (tt, match s p with Some (File _) => upd s p (File d) | _ => s end)
  | Read p =>
      (match s p with Some (File d) => Ok d | Some Dir => Err OSError | None => Err FileNotFoundError end, s)
  end.

(** Programs: a value, an exception, or a system call and what follows. *)
Inductive prog (A : Type) : Type :=
| Ret (a : A)
| Raise (e : exn)
| Do (X : Type) (o : op X) (k : X -> prog A).
Arguments Ret {A} _.
Arguments Raise {A} _.
Arguments Do {A X} _ _.

Fixpoint bindP {A B} (p : prog A) (f : A -> prog B) : prog B :=
  match p with
  | Ret a => f a
  | Raise e => Raise e
  | Do o k => Do o (fun x => bindP (k x) f)
  end.
(** [try: p except ...: h]. *)
Fixpoint catchP {A} (p : prog A) (h : exn -> prog A) : prog A :=
  match p with
  | Ret a => Ret a
  | Raise e => h e
  | Do o k => Do o (fun x => catchP (k x) h)
  end.
Definition lift {A} (r : res A) : prog A := match r with Ok a => Ret a | Err e => Raise e end.
Definition call {X} (o : op X) : prog X := Do o Ret.
Definition callE {A} (o : op (res A)) : prog A := Do o lift.

Declare Scope prog_scope.
Delimit Scope prog_scope with prog.
Notation "x <- e ;; f" := (bindP e (fun x => f)) (at level 61, e at next level, right associativity) : prog_scope.
Notation "e ;;; f" := (bindP e (fun _ => f)) (at level 61, right associativity) : prog_scope.
Open Scope prog_scope.

(** Sequential execution. *)
Fixpoint run {A} (p : prog A) (s : fs) : res A * fs :=
  match p with
  | Ret a => (Ok a, s)
  | Raise e => (Err e, s)
  | Do o k => let '(x, s') := exec o s in run (k x) s'
  end.

(** Execution cut after at most [n] system calls: what is left and the state. *)
Fixpoint steps {A} (n : nat) (p : prog A) (s : fs) : prog A * fs :=
  match n, p with
  | S m, Do o k => let '(x, s') := exec o s in steps m (k x) s'
  | _, _ => (p, s)
  end.

(** Two programs on one file system; the schedule says whose call is next. *)
Fixpoint interleave {A B} (sched : list bool) (p : prog A) (q : prog B) (s : fs) : prog A * prog B * fs :=
  match sched with
  | [] => (p, q, s)
  | true :: t => let '(p', s') := steps 1 p s in interleave t p' q s'
  | false :: t => let '(q', s') := steps 1 q s in interleave t p q' s'
  end.

(** CPython Lib/os.py makedirs(name, exist_ok): create missing ancestors first,
    ignore FileExistsError there; the argument is the reversed path. *)
Fixpoint makedirs_rev (exist_ok : bool) (r : path) : prog unit :=
  match r with
  | [] => if exist_ok then Ret tt else Raise FileExistsError
  | _ :: t =>
      b <- call (Exists (rev t)) ;;
      (if b then Ret tt
       else catchP (makedirs_rev exist_ok t) (fun e => match e with FileExistsError => Ret tt | _ => Raise e end)) ;;;
      r' <- call (Mkdir (rev r)) ;;
      match r' with
      | Ok _ => Ret tt
      | Err e =>
          if exist_ok then (d <- call (Isdir (rev r)) ;; if d then Ret tt else Raise e)
          else Raise e
      end
  end.
Definition makedirs (p : path) (exist_ok : bool) : prog unit := makedirs_rev exist_ok (rev p).

(** [with open(p, 'w') as f: f.write(...)]; numpy.savetxt; Table.write(overwrite=True). *)
Definition write_file (p : path) (d : doc) : prog unit := callE (OpenW p) ;;; call (Put p d).

(** Decimal numerals: str(n), str(z) and "%03d" % n. *)
Definition dec (n : nat) : string := NilEmpty.string_of_uint (Nat.to_uint n).
Definition decZ (z : Z) : string := NilEmpty.string_of_int (Z.to_int z).
Definition pad3 (n : nat) : string :=
  let d := dec n in
  match String.length d with 0 => "000" | 1 => "00" | 2 => "0" | _ => "" end%nat ^^ d.
