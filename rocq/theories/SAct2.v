(** Vocabulary of the actuator properties that speaks about the object's
    attributes and the arguments of its methods. *)
From Coq Require Import List.
From Verif Require Import PyBase Num MAperture MFs MAct SAct.
Import ListNotations.
Open Scope R_scope.

(** Phase change (rad) on the primary dish per micrometre of displacement: every
    reflection changes the path once. *)
Definition radians_per_um (o : actuator) : R :=
  ac_sign o * (2 * PI * ac_n_reflections o) / (299792458 / ac_frequency o * 1000000).

Definition usable_act (o : actuator) : Prop :=
  0 < ac_frequency o /\ (ac_sign o = 1 \/ ac_sign o = -1) /\ 0 < ac_n_reflections o /\ ac_min o <= ac_max o.

Definition each_map (P : list (list num) -> Prop) (a : maps) : Prop :=
  match a with Map2 m => P m | Map3 l => Forall P l end.

Definition sized (m : list (list num)) : Prop := exists r c, rect r c m /\ (0 < r)%nat /\ (0 < c)%nat.

(** Phases whose displacements are within the limits. *)
Definition within_limits (o : actuator) (p : num) : Prop :=
  p = NaN \/ exists x, p = Fin x /\ ac_min o <= x / radians_per_um o <= ac_max o.

Definition ring_radius (i : nat) : R := nth i [3250 / 1000; 2600 / 1000; 1880 / 1000; 1210 / 1000] 0.

Definition ring_angle (k : nat) : R := (15 / 2 + 15 * INR k) * (PI / 180).

(** T holds, for each of the first eleven displacement maps of l (rows along y) and each of
    the 96 actuators, the value at the actuator of the spline through the map, on an axis
    from - sr to sr in millimetres. *)
Definition over_actuators (sp : spline) (o : actuator) (l : list (list (list num))) (T : list (list num)) : Prop :=
  rect 11 96 T /\
  forall j, (j < 11)%nat -> exists m f, nth_error l j = Some m /\
    sp (linspace (- ac_sr o * 1000) (ac_sr o * 1000) (ac_resolution o)) (linspace (- ac_sr o * 1000) (ac_sr o * 1000) (ac_resolution o)) (transpose m) = Ok f /\
    forall i k, (i < 4)%nat -> (k < 24)%nat ->
      elem NaN T j (24 * i + k) = f (ring_radius i * cos (ring_angle k) * 1000) (ring_radius i * sin (ring_angle k) * 1000).

(** The table a call of write_lookup works on. *)
Definition lookup_input (sp : spline) (o : actuator) (a : maps) (T : list (list num)) : Prop :=
  match a with Map2 m => T = m | Map3 l => over_actuators sp o l T end.

(** What one elevation contributes. *)
Definition elevation_map (o : actuator) (g : list (list R)) (alpha : angle) (phi : list (list R)) : Prop :=
  exists K x y, length K = ac_N_K o /\ (forall k, (k < ac_N_K o)%nat -> grav_deformation (nth k g []) alpha = Ok (nth k K 0)) /\
    phase K (ac_pr o) false false (ac_resolution o) = Ok (x, y, phi).

(** The correction grid. *)
Definition sub_radius (o : actuator) (j i : nat) : R :=
  sqrt (nth i (linspace (- ac_sr o) (ac_sr o) (ac_resolution o)) 0 ^ 2 + nth j (linspace (- ac_sr o) (ac_sr o) (ac_resolution o)) 0 ^ 2).

Definition all_zero (r : res (list R)) : Prop := exists l, r = Ok l /\ Forall (fun x => x = 0) l.

(** An optimiser whose answer makes the residuals vanish whenever that is possible. *)
Definition exact_solver (solve : lsq) : Prop := forall f x0 x, solve f x0 = Ok x ->
  (exists z, length z = length x0 /\ all_zero (f z)) -> length x = length x0 /\ all_zero (f x).

(** Three elevations that differ within one turn. *)
Definition three_elevations (alphas : list angle) : Prop := exists a b c, In a alphas /\ In b alphas /\ In c alphas /\
  forall x y, In (x, y) [(a, b); (a, c); (b, c)] -> angle_value x <> angle_value y /\ Rabs (angle_value x - angle_value y) < 2 * PI.
