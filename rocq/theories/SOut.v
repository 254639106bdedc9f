(** Specification of the stored results of one fit_zpoly run (docs and
    docstrings of fit_zpoly, store_data_csv, store_data_ascii). *)
From Coq Require Import String Ascii List.
From Verif Require Import PyBase Num MFs.
Import ListNotations.
Open Scope R_scope.
Open Scope string_scope.
Open Scope list_scope.

(** Files of order n; files of the run; figures. *)
Definition order_files (n : nat) : list string :=
  map (fun stem => stem ^^ "_n" ^^ dec n ^^ ".csv") ["fitpar"; "res"; "jac"; "grad"; "phase"; "cov"; "corr"].
Definition data_files : list string := ["beam_data.csv"; "u_data.csv"; "v_data.csv"; "pyoof_info.yml"].
Definition order_figures (n : nat) : list string :=
  map (fun stem => stem ^^ "_n" ^^ dec n ^^ ".pdf") ["fitbeam"; "fitphase"; "residual"; "cov"; "corr"].

(** Paths, relative to the run directory, of every file after orders 1..N. *)
Definition documented (N : nat) (plots : bool) : list path :=
  match N with
  | O => []
  | S _ =>
      map (fun f => [f]) (data_files ++ flat_map order_files (seq 1 N))
      ++ (if plots then map (fun f => ["plots"; f]) ("obsbeam.pdf" :: flat_map order_figures (seq 1 N)) else [])
  end.

(** Numbered directory: name, a dash, at least three digits. *)
Definition numbered (work_dir : path) (name : string) (j : nat) : path :=
  work_dir ++ ["pyoof_out"; name ^^ "-" ^^ pad3 j].

(** q is p or lies above it / below it. *)
Definition above (q p : path) : Prop := exists t, p = q ++ t.
Definition below (p q : path) : Prop := exists t, q = p ++ t.

(** Root is a directory and every node lies in a directory. *)
Definition file_tree (s : fs) : Prop := s [] = Some Dir /\ forall p c, s (p ++ [c]) <> None -> s p = Some Dir.

(** [x] lies between the bounds, component by component. *)
Definition within (le : R -> R -> Prop) (x lo hi : list R) : Prop :=
  length lo = length x /\ length hi = length x /\
  forall i, (i < length x)%nat -> le (nth i lo 0) (nth i x 0) /\ le (nth i x 0) (nth i hi 0).

(** store_data_csv: file and header of each of the nine arrays, in the order in
    which the arrays are given. *)
Definition csv_layout (n : nat) : list (string * string) := [
  ("beam_data.csv", "Normalized beam"); ("u_data.csv", "u vector radians"); ("v_data.csv", "v vector radians");
  ("res_n" ^^ dec n ^^ ".csv", "Residual"); ("jac_n" ^^ dec n ^^ ".csv", "Jacobian"); ("grad_n" ^^ dec n ^^ ".csv", "Gradient");
  ("phase_n" ^^ dec n ^^ ".csv", "Phase-error radians");
  ("cov_n" ^^ dec n ^^ ".csv", "Variance-Covariance matrix (first row fitted parameters idx)");
  ("corr_n" ^^ dec n ^^ ".csv", "Correlation matrix (first row fitted parameters idx)") ].
(** The first three (the data) are written by order 1 only. *)
Definition csv_written (n k : nat) : Prop := (k < 9)%nat /\ (n = 1%nat \/ (3 <= k)%nat).

(** Characters of a string; a backslash-underscore pair read back as an underscore. *)
Definition letters : string -> list ascii := list_ascii_of_string.
Definition backslash : ascii := "\".
Definition underscore : ascii := "_".
Fixpoint read_latex (l : list ascii) : list ascii :=
  match l with
  | [] => []
  | c :: t => match t with
              | e :: _ => if (Ascii.eqb c backslash && Ascii.eqb e underscore)%bool then read_latex t else c :: read_latex t
              | [] => [c]
              end
  end.
