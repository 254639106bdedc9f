(** Specification vocabulary for scripts/create_lookup.py. *)
From Coq Require Import String Ascii List.
From Verif Require Import PyBase Num MMath MAperture MFs MOut MAct MTab SOut SFit SAct SAct2.
Import ListNotations.
Open Scope R_scope.
Open Scope string_scope.
Open Scope list_scope.

(** The N coefficients of order n stored in the directory <name>-000 of the row's
    name (a table with one coefficient only would fill the whole row). *)
Definition row_coeffs (s : fs) (base : path) (n N : nat) (r : tab_row) (K : list R) : Prop :=
  exists rows, fitpar_rows s (base ++ [tr_name r ^^ "-000"]) n rows /\
    (K = skipn 5 (map parfit rows) /\ length K = N \/ exists x, N <> 1%nat /\ skipn 5 (map parfit rows) = [x] /\ K = repeat x N).
Definition elevations (rows : list tab_row) : list angle := map (fun r => Deg (tr_meanel r)) rows.

(** A row that is used: in-focus signal-to-noise ratio above 200, and the name is
    not "offset" and does not end in "-offset". *)
Definition above_200 (x : num) : Prop := x = PInf \/ exists t, x = Fin t /\ 200 < t.
Definition used (r : tab_row) : Prop :=
  above_200 (nth 1 (tr_snr r) NaN) /\ ~ (tr_name r = "offset" \/ exists p, tr_name r = p ^^ "-offset").

(** T holds, for each of the eleven phase maps and each of the 96 actuators, the
    interpolated displacement at the actuator (axes in millimetres). *)
Definition at_actuators (sp : spline) (o : actuator) (phases : list (list (list num))) (T : list (list num)) : Prop :=
  rect 11 96 T /\
  forall j, (j < 11)%nat -> exists d f,
    itransform o (Map2 (nth j phases [])) = Map2 d /\
    sp (linspace (- ac_sr o * 1000) (ac_sr o * 1000) (ac_resolution o)) (linspace (- ac_sr o * 1000) (ac_sr o * 1000) (ac_resolution o)) (transpose d) = Ok f /\
    forall k, (k < 96)%nat -> elem NaN T j k = f (nth k act_x 0 * 1000) (nth k act_y 0 * 1000).

(** A spline through zeros is zero. *)
Definition zero_exact (sp : spline) : Prop := forall x y m f, Forall (Forall (fun v => v = Fin 0)) m -> sp x y m = Ok f -> forall p q, f p q = Fin 0.

(** d holds the displacements of the actuators, in micrometres, for the square map p
    of phases: turned back by quarter turns, divided by the radians of phase per
    micrometre, and kept between the limits. *)
Definition displacements (o : actuator) (p d : list (list num)) : Prop :=
  rect (ac_resolution o) (ac_resolution o) d /\
  forall i j, (i < ac_resolution o)%nat -> (j < ac_resolution o)%nat ->
    elem NaN d i j = between (ac_min o) (ac_max o)
      (ndiv (let '(i', j') := turned_from (- ac_nrot o) (ac_resolution o) (ac_resolution o) i j in elem NaN p i' j') (Fin (radians_per_um o))).

(** T holds, for each elevation of the look-up table and each actuator, the
    displacement of the law h (three numbers per coefficient) at that elevation:
    the map of its phases, multiplied by the correction for the inclination of the
    actuators to the power 11 - j (see C55), as displacements of the actuators,
    interpolated at the actuator. *)
Definition law_at_actuators (sp : spline) (o : actuator) (h : list (list R)) (T : list (list num)) : Prop :=
  rect 11 96 T /\
  forall j, (j < 11)%nat -> exists phi p d f,
    elevation_map o h (Deg (nth j [7; 10; 20; 30; 32; 40; 50; 60; 70; 80; 90] 0)) phi /\ rect (ac_resolution o) (ac_resolution o) p /\
    (forall v u, (v < ac_resolution o)%nat -> (u < ac_resolution o)%nat -> exists c,
       eac (143050 / 10000) (73872 / 10000) (sub_radius o v u) = Fin c /\ 0 <= c <= 1 /\ elem NaN p v u = Fin (elem 0 phi v u * c ^ (11 - j))) /\
    displacements o p d /\
    sp (linspace (- ac_sr o * 1000) (ac_sr o * 1000) (ac_resolution o)) (linspace (- ac_sr o * 1000) (ac_sr o * 1000) (ac_resolution o)) (transpose d) = Ok f /\
    forall a, (a < 96)%nat -> elem NaN T j a = f (nth a act_x 0 * 1000) (nth a act_y 0 * 1000).

(** The files the script leaves: the new table and the four figures. *)
Definition lookup_files (today : string) : list string :=
  ["FEM_OOF_Table_" ^^ today ^^ ".dat"; "phase_pr_model_" ^^ today ^^ ".pdf"; "phase_pr_lookup.pdf";
   "phases_pr_correction_" ^^ today ^^ ".pdf"; "gravfit_" ^^ today ^^ ".pdf"].
