(** Model of EffelsbergActuator.plot, pyoof/actuator/actuator.py:608-709: what the
    figure shows.  Layout, colours and fonts are not modelled. *)
From Coq Require Import String List.
From Verif Require Import PyBase Num MMath MAperture MFs MAct MPlot.
Import ListNotations.
Open Scope R_scope.
Open Scope string_scope.
Open Scope list_scope.
Open Scope prog_scope.

(** actuator.py:633-645: radius, contour levels and the label of the colour bar, by the unit of
    [data_r] ([rad]: radians, otherwise micrometres; other lengths are converted). *)
Definition plot_radius (o : actuator) (rad : bool) : R := if rad then ac_pr o else ac_sr o.
Definition shown_levels (o : actuator) (rad : bool) : list R := if rad then linspace (-2) 2 9 else plot_levels o.
Definition plot_bar (rad : bool) : string := if rad then "Actuator phase-error rad" else "Actuator displacement $\mu$s".

(** actuator.py:666-706.  [fmt] prints an elevation in degrees.  One colour bar
    serves all panels. *)
Definition act_plot (fmt : R -> string) (o : actuator) (rad : bool) (data : list (list (list num))) (size : R * R) (title : option string) : res figure :=
  let radius := plot_radius o rad in
  let x := linspace (- radius) radius (ac_resolution o) in
  bind (np_min (concat (concat data))) (fun vmin => bind (np_max (concat (concat data))) (fun vmax =>
  bind (mapM (fun '(j, alpha) =>
    bind (py_get data j) (fun m =>
    bind (contour x x m (map Fin (shown_levels o rad))) (fun ct =>
    Ok {| pn_image := {| im_data := shown_all m; im_x0 := - radius; im_x1 := radius; im_y0 := - radius; im_y1 := radius;
                         im_lower := true; im_scale := Some (vmin, vmax) |};
          pn_contour := Some ct; pn_title := "$\alpha=" ^^ fmt alpha ^^ "$ deg"; pn_xlabel := ""; pn_ylabel := ""; pn_bar := plot_bar rad;
          pn_xlim := None; pn_ylim := None; pn_xticks := []; pn_yticks := [] |}))) (combine (seq 0 11) alpha_lookup)) (fun panels =>
  Ok {| fg_size := size; fg_title := match title with Some t => t | None => "" end; fg_panels := panels |}))).

(** actuator.py:88-100 and :631-632: the object made from a look-up file, and its
    plot without data (the phases of that file). *)
Definition plot_lookup (fmt : R -> string) (gd : griddata) (o : actuator) (fname : path) (size : R * R) (title : option string) : prog figure :=
  st <- act_init gd o fname ;;
  match snd st with Map3 l => lift (act_plot fmt o true l size title) | Map2 _ => Raise IndexError end.
