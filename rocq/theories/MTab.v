(** Model of pyoof/aux_functions.py:321-389 [table_pyoof_out]. *)
From Coq Require Import String Ascii List.
From Verif Require Import PyBase Num MMath MAperture MFs MOut.
Import ListNotations.
Open Scope R_scope.
Open Scope string_scope.
Open Scope list_scope.
Open Scope prog_scope.

(** One row of the table, aux_functions.py:345-352 (units: deg, dB, rad). *)
Record tab_row := {
  tr_name : string; tr_tel_name : string; tr_object : string; tr_date : string; tr_meanel : R;
  tr_i_amp : R; tr_c_dB : R; tr_q : R; tr_rms : num; tr_e_rs : num; tr_snr : list num }.

(** [np.genfromtxt] of a phase file, used as a 2-D array: an array with a single
    row or column comes back one-dimensional and [shape[1]] is an IndexError, so
    does an empty file.  A file that is no csv is a ValueError. *)
Definition read_phase (d : doc) : res (list (list num)) :=
  match d with
  | Csv _ (A2 m) => if Nat.leb 2 (length m) && Nat.leb 2 (ncols m) then Ok m else Err IndexError
  | Csv _ (A1 _) | Partial => Err IndexError
  | _ => Err ValueError
  end.

(** aux_functions.py:355-381, one directory.  The stored information is loaded
    first and indexed last (a file without the keys: KeyError; an empty one is
    None: TypeError); e_rs sees the phase map as rms has left it; ten
    values and the list snr must fill thirteen columns. *)
Definition table_row (dir : path) (order : nat) : prog tab_row :=
  info <- callE (Read (dir ++ ["pyoof_info.yml"])) ;;
  dph <- callE (Read (dir ++ ["phase_n" ^^ dec order ^^ ".csv"])) ;;
  ph <- lift (read_phase dph) ;;
  rp <- lift (rms_circ ph) ;;
  ep <- lift (e_rs_circ (snd rp)) ;;
  tab <- callE (Read (dir ++ [fitpar_name order])) ;;
  parfit <- match tab with Params rows => Ret (map (fun '(_, fit, _) => fit) rows) | _ => Raise ValueError end ;;
  let I_coeff := firstn 5 parfit in
  i <- match info with Info i => Ret i | Partial => Raise TypeError | _ => Raise KeyError end ;;
  i_amp <- lift (py_get I_coeff 0) ;;
  c_dB <- lift (py_get I_coeff 1) ;;
  q <- lift (py_get I_coeff 2) ;;
  if Nat.eqb (10 + length (ri_snr i)) 13
  then Ret {| tr_name := ri_name i; tr_tel_name := ri_tel_name i; tr_object := ri_object i; tr_date := ri_date i; tr_meanel := ri_meanel i;
              tr_i_amp := i_amp; tr_c_dB := c_dB; tr_q := q; tr_rms := fst rp; tr_e_rs := fst ep; tr_snr := ri_snr i |}
  else Raise ValueError.

Fixpoint table_rows (dirs : list path) (order : nat) : prog (list tab_row) :=
  match dirs with
  | [] => Ret []
  | d :: t => r <- table_row d order ;; rs <- table_rows t order ;; Ret (r :: rs)
  end.

(** aux_functions.py:383-389: the dates become astropy Times; [isot] says which
    strings that class accepts (ValueError otherwise).  The result is the order
    (meta) and the rows.  Not modelled: string columns are bytes; numpy releases
    without np.float and np.string_ raise AttributeError. *)
Definition table_pyoof_out (isot : string -> bool) (dirs : list path) (order : nat) : prog (nat * list tab_row) :=
  rows <- table_rows dirs order ;;
  if forallb (fun r => isot (tr_date r)) rows then Ret (order, rows) else Raise ValueError.
