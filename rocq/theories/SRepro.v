(** Specification vocabulary: two fits of the same maps. *)
From Coq Require Import String List.
From Verif Require Import PyBase Num MMath SMath MAperture MCore MFs MOut SOut SFit.
Import ListNotations.
Open Scope R_scope.
Open Scope string_scope.
Open Scope list_scope.

(** Each map is the other one with another gain (positive) and offset. *)
Definition recalibrated (maps maps' : list (list num)) : Prop :=
  Forall2 (fun m m' => exists g o, 0 < g /\ m' = map (affine g o) m) maps maps'.
(** The same points, telescope, illumination, wavelength, resolution and way of starting.
    The name, the directories, the object, the date, the plots and the number of orders
    may differ. *)
Definition same_setting (a b : fit_args) : Prop :=
  fa_u a = fa_u b /\ fa_v a = fa_v b /\ fa_d_z a = fa_d_z b /\ fa_wavel a = fa_wavel b /\ fa_illum a = fa_illum b /\ fa_tel a = fa_tel b /\
  fa_resolution a = fa_resolution b /\ fa_box_factor a = fa_box_factor b /\ fa_fit_previous a = fa_fit_previous b.
(** The results of order n in two run directories: the same parameter table, and the
    same arrays under headers that end with the name of the run. *)
Definition same_results (n : nat) (s : fs) (d : path) (name : string) (s' : fs) (d' : path) (name' : string) : Prop :=
  (exists rows, fitpar_rows s d n rows /\ fitpar_rows s' d' n rows) /\
  forall file header, In (file, header)
    [("res", "Residual "); ("jac", "Jacobian "); ("grad", "Gradient "); ("phase", "Phase-error radians ");
     ("cov", "Variance-Covariance matrix (first row fitted parameters idx) "); ("corr", "Correlation matrix (first row fitted parameters idx) ")] ->
  exists x, csv_file s d (file ^^ "_n" ^^ dec n ^^ ".csv") (header ^^ name) x /\ csv_file s' d' (file ^^ "_n" ^^ dec n ^^ ".csv") (header ^^ name') x.
