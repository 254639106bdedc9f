(** Property theorems C52-C59, C65-C68: pyoof.actuator.EffelsbergActuator. *)
From Coq Require Import String Ascii List Sorted.
From Verif Require Import PyBase PyLib Num MMath MAperture MFs MAct SAct SAct2 PFs PDemo PAct PAct3 PAct4 PAct5 PAct6 PAct7 PAct8 PGrid.
Import ListNotations.
Open Scope R_scope.
Open Scope string_scope.
Open Scope list_scope.
Open Scope prog_scope.

(** C52. Displacements to phases and back: only the limits are applied. *)
Theorem C52_there_and_back o a : usable_act o -> each_map sized a ->
  itransform o (transform o a) = on_maps (map2d (between (ac_min o) (ac_max o))) a.
Proof. exact (there_and_back o a). Qed.
Print Assumptions C52_there_and_back.
(** Phases to displacements and back, when the displacements are within the limits. *)
Theorem C52_back_and_there o a : usable_act o -> each_map sized a ->
  each_map (Forall (Forall (within_limits o))) a -> transform o (itransform o a) = a.
Proof. exact (back_and_there o a). Qed.
Print Assumptions C52_back_and_there.
(** What each direction does to a pixel: a turn by quarter turns and one factor. *)
Theorem C52_transform_pixel o r c m : rect r c m -> (0 < r)%nat -> (0 < c)%nat ->
  exists p, transform o (Map2 m) = Map2 p /\ (forall l, In m l -> exists ps, transform o (Map3 l) = Map3 ps /\ In p ps) /\
  let '(r', c') := turned_shape (ac_nrot o) r c in rect r' c' p /\
  forall i j, (i < r')%nat -> (j < c')%nat ->
    elem NaN p i j = nmul (Fin (radians_per_um o)) (let '(i', j') := turned_from (ac_nrot o) r c i j in elem NaN m i' j').
Proof. exact (transform_pixel o r c m). Qed.
Print Assumptions C52_transform_pixel.
(** Every map of a stack is treated alike. *)
Theorem C52_stack o l a : (a < length l)%nat -> exists ps, transform o (Map3 l) = Map3 ps /\ length ps = length l /\
  transform o (Map2 (nth a l [])) = Map2 (nth a ps []).
Proof. exact (map3_nth o l a). Qed.
Print Assumptions C52_stack.
Theorem C52_itransform_pixel o r c m : usable_act o -> rect r c m -> (0 < r)%nat -> (0 < c)%nat ->
  exists d, itransform o (Map2 m) = Map2 d /\
  let '(r', c') := turned_shape (- ac_nrot o) r c in rect r' c' d /\
  forall i j, (i < r')%nat -> (j < c')%nat ->
    elem NaN d i j = between (ac_min o) (ac_max o)
       (ndiv (let '(i', j') := turned_from (- ac_nrot o) r c i j in elem NaN m i' j') (Fin (radians_per_um o))).
Proof. exact (itransform_pixel o r c m). Qed.
Print Assumptions C52_itransform_pixel.
Example C52_nonvacuous : usable_act (demo_act 2 3) /\ each_map sized (Map2 [ [Fin 1; Fin 2; NaN]; [Fin 7000; PInf; Fin (-3)] ]) /\
  each_map (Forall (Forall (within_limits (demo_act 2 3)))) (Map3 [ [ [Fin 0; NaN] ]; [ [Fin 0; Fin 0] ] ]).
Proof.
  split; [apply demo_usable|]. split; [exists 2%nat, 3%nat; repeat split; try lia; repeat constructor|].
  assert (W : within_limits (demo_act 2 3) (Fin 0)). { right. exists 0. split; [reflexivity|]. unfold Rdiv. rewrite Rmult_0_l. cbn. lra. }
  cbn [each_map]. repeat first [apply Forall_nil | apply Forall_cons | exact W | left; reflexivity].
Qed.

(** C53. Every displacement that itransform returns is within the limits (a NaN stays NaN). *)
Theorem C53_itransform o a : usable_act o ->
  each_map (Forall (Forall (fun x => x = NaN \/ exists t, x = Fin t /\ ac_min o <= t <= ac_max o))) (itransform o a).
Proof. exact (itransform_limits o a). Qed.
Print Assumptions C53_itransform.
(** What write_lookup stores is within the limits taken outwards to whole micrometres, when no entry is NaN. *)
Theorem C53_written sp o fname a T s s' : lookup_input sp o a T -> rect 11 96 T -> ac_min o <= ac_max o ->
  (forall j k, (j < 11)%nat -> (k < 96)%nat -> elem NaN T j k <> NaN) ->
  run (write_lookup sp o fname a) s = (Ok tt, s') ->
  exists z, s' fname = Some (File (Text (table_text z))) /\
    forall j k, (j < 11)%nat -> (k < 96)%nat ->
      (forall m, IZR m <= ac_min o -> (m <= z j k)%Z) /\ (forall m, ac_max o <= IZR m -> (z j k <= m)%Z).
Proof. exact (written_limits sp o fname a T s s'). Qed.
Print Assumptions C53_written.
(** The claim without these two provisos is false: a NaN entry is stored as the
    smallest 64-bit integer, and a limit that is not whole is exceeded by rounding. *)
Theorem C53_nan_refuted sp o fname a T s s' j k : lookup_input sp o a T -> rect 11 96 T -> ac_min o <= ac_max o -> (j < 11)%nat -> (k < 96)%nat ->
  elem NaN T j k = NaN -> run (write_lookup sp o fname a) s = (Ok tt, s') ->
  exists table, run (read_lookup_plain fname) s' = (Ok (alpha_lookup, table), s') /\ elem 0 table j k = - 9223372036854775808.
Proof. exact (nan_written sp o fname a T s s' j k). Qed.
Print Assumptions C53_nan_refuted.
Theorem C53_fraction_refuted sp fname s s' o : ac_min o = - (6 / 10) -> ac_max o = 6 / 10 ->
  run (write_lookup sp o fname (Map2 (map (fun _ => map (fun _ => Fin 1) (seq 0 96)) (seq 0 11)))) s = (Ok tt, s') ->
  exists table, run (read_lookup_plain fname) s' = (Ok (alpha_lookup, table), s') /\ elem 0 table 0 0 = 1 /\ ac_max o < 1.
Proof. exact (fraction_written sp fname s s' o). Qed.
Print Assumptions C53_fraction_refuted.

(** C54. A table written and read again: limited and rounded, half way cases to the even number. *)
Theorem C54_written_back sp o fname T s s' : rect 11 96 T -> ac_min o <= ac_max o ->
  run (write_lookup sp o fname (Map2 T)) s = (Ok tt, s') ->
  exists table, run (read_lookup_plain fname) s' = (Ok (alpha_lookup, table), s') /\ rect 11 96 table /\
    forall j k x, (j < 11)%nat -> (k < 96)%nat -> elem NaN T j k = Fin x ->
      exists z, elem 0 table j k = IZR z /\ rounded (Rmax (ac_min o) (Rmin (ac_max o) x)) z.
Proof. exact (write_read sp o fname T s s'). Qed.
Print Assumptions C54_written_back.
(** Tables of integers within the limits come back unchanged. *)
Theorem C54_exact sp o fname (z : nat -> nat -> Z) s s' : ac_min o <= ac_max o ->
  (forall j k, (j < 11)%nat -> (k < 96)%nat -> ac_min o <= IZR (z j k) <= ac_max o) ->
  run (write_lookup sp o fname (Map2 (map (fun j => map (fun k => Fin (IZR (z j k))) (seq 0 96)) (seq 0 11)))) s = (Ok tt, s') ->
  run (read_lookup_plain fname) s' = (Ok (alpha_lookup, map (fun j => map (fun k => IZR (z j k)) (seq 0 96)) (seq 0 11)), s').
Proof. exact (write_read_exact sp o fname z s s'). Qed.
Print Assumptions C54_exact.
(** Maps are taken at the actuators: interp_surface2rings gives the value of the spline
    through each of the eleven maps at the place of each actuator. *)
Theorem C54_interpolated sp o l T : interp_surface2rings sp o l = Ok T <-> over_actuators sp o l T.
Proof. exact (interp_iff sp o l T). Qed.
Print Assumptions C54_interpolated.
(** When the directory exists the call succeeds and touches no other path. *)
Theorem C54_write_succeeds sp o fname a T s : lookup_input sp o a T -> rect 11 96 T -> ac_min o <= ac_max o ->
  s (parent fname) = Some Dir -> s fname <> Some Dir ->
  exists s', run (write_lookup sp o fname a) s = (Ok tt, s') /\ forall p, p <> fname -> s' p = s p.
Proof. exact (write_succeeds sp o fname a T s). Qed.
Print Assumptions C54_write_succeeds.
(** Otherwise it raises and changes nothing. *)
Theorem C54_write_fails sp o fname a T s : lookup_input sp o a T -> rect 11 96 T -> ac_min o <= ac_max o ->
  s fname = Some Dir \/ (s fname = None /\ s (parent fname) <> Some Dir) ->
  exists e, run (write_lookup sp o fname a) s = (Err e, s).
Proof. exact (write_fails sp o fname a T s). Qed.
Print Assumptions C54_write_fails.
Definition table54 (x : num) : list (list num) := map (fun _ => map (fun _ => x) (seq 0 96)) (seq 0 11).
Lemma table54_rect x : rect 11 96 (table54 x).
Proof. split; [reflexivity|]. apply Forall_map, Forall_forall. intros. rewrite map_length. apply seq_length. Qed.
Example C54_nonvacuous : rect 11 96 (table54 (Fin (7 / 2))) /\ ac_min (demo_act 2 3) <= ac_max (demo_act 2 3) /\
  (forall sp x, exists s', run (write_lookup sp (demo_act 2 3) ["w"; "table.txt"] (Map2 (table54 x))) demo_fs = (Ok tt, s')) /\
  (forall sp, exists e, run (write_lookup sp (demo_act 2 3) ["w"; "missing"; "table.txt"] (Map2 (table54 NaN))) demo_fs = (Err e, demo_fs)).
Proof.
  assert (L : ac_min (demo_act 2 3) <= ac_max (demo_act 2 3)) by (cbn; lra).
  split; [apply table54_rect|]. split; [exact L|]. split.
  - intros sp x. destruct (write_succeeds sp (demo_act 2 3) ["w"; "table.txt"] (Map2 (table54 x)) (table54 x) demo_fs eq_refl (table54_rect x) L eq_refl) as (s' & R & _); [discriminate|eauto].
  - intros sp. apply (write_fails sp _ _ (Map2 (table54 NaN)) (table54 NaN)); [reflexivity|apply table54_rect|exact L|]. right. split; [reflexivity|discriminate].
Qed.
Example C54_nonvacuous_interpolated : exists T, interp_surface2rings (fun x y z => Ok (fun p q => nadd (elem NaN z 1 0) (Fin (p + 2 * q)))) (demo_act 2 3) (repeat [ [Fin 1; Fin 2]; [Fin 3; Fin 4] ] 11) = Ok T /\
  elem NaN T 5 25 = Fin (2 + (2600 / 1000 * cos (ring_angle 1) * 1000 + 2 * (2600 / 1000 * sin (ring_angle 1) * 1000))).
Proof.
  eexists. split; [reflexivity|]. match goal with |- elem NaN ?T 5 25 = _ => pose proof (proj1 (interp_iff (fun x y z => Ok (fun p q => nadd (elem NaN z 1 0) (Fin (p + 2 * q)))) (demo_act 2 3) (repeat [ [Fin 1; Fin 2]; [Fin 3; Fin 4] ] 11) T) eq_refl) as [_ H] end.
  destruct (H 5%nat ltac:(lia)) as (m & f & Em & Ef & Hf). apply Ok_inj in Ef. subst f. cbn in Em. injection Em as <-. exact (Hf 1%nat 1%nat ltac:(lia) ltac:(lia)).
Qed.
Example C53_nonvacuous : elem NaN (table54 NaN) 3 17 = NaN /\ exists o, ac_min o = - (6 / 10) /\ ac_max o = 6 / 10 /\
  forall sp, exists s', run (write_lookup sp o ["w"; "table.txt"] (Map2 (table54 (Fin 1)))) demo_fs = (Ok tt, s').
Proof.
  split; [reflexivity|]. set (o := {| ac_frequency := 34750000000; ac_nrot := 1; ac_sign := -1; ac_sr := 325 / 100; ac_pr := 50; ac_order := 5; ac_resolution := 1000;
    ac_min := - (6 / 10); ac_max := 6 / 10; ac_n_reflections := 2 |}). exists o. split; [reflexivity|]. split; [reflexivity|]. intros sp.
  destruct (write_succeeds sp o ["w"; "table.txt"] (Map2 (table54 (Fin 1))) (table54 (Fin 1)) demo_fs eq_refl (table54_rect _)) as (s' & R & _); [cbn; lra|reflexivity|discriminate|eauto].
Qed.

(** C55. Without the correction every map is the phase of the gravity-model coefficients of its elevation. *)
Theorem C55_plain o g alphas out d : generate_phase_pr o g alphas false = Ok out ->
  length out = length alphas /\
  forall a, (a < length alphas)%nat -> exists phi, elevation_map o g (nth a alphas d) phi /\ nth a out [] = map2d Fin phi.
Proof. exact (gen_plain o g alphas out d). Qed.
Print Assumptions C55_plain.
(** With it, map a of N carries the correction N - a times. *)
Theorem C55_corrected o g alphas out d : 0 <= ac_sr o -> ac_sr o * sqrt 2 <= 73872 / 10000 ->
  generate_phase_pr o g alphas true = Ok out ->
  length out = length alphas /\
  forall a, (a < length alphas)%nat -> exists phi, elevation_map o g (nth a alphas d) phi /\ rect (ac_resolution o) (ac_resolution o) (nth a out []) /\
    forall j i, (j < ac_resolution o)%nat -> (i < ac_resolution o)%nat -> exists c,
      eac (143050 / 10000) (73872 / 10000) (sub_radius o j i) = Fin c /\ 0 <= c <= 1 /\
      elem NaN (nth a out []) j i = Fin (elem 0 phi j i * c ^ (length alphas - a)).
Proof. exact (gen_corrected o g alphas out d). Qed.
Print Assumptions C55_corrected.
(** "Once per elevation" is false. *)
Theorem C55_once_refuted : exists o g alphas out phi j i c,
  0 <= ac_sr o /\ ac_sr o * sqrt 2 <= 73872 / 10000 /\
  generate_phase_pr o g alphas true = Ok out /\ (0 < length alphas)%nat /\ elevation_map o g (nth 0 alphas (Rad 0)) phi /\
  (j < ac_resolution o)%nat /\ (i < ac_resolution o)%nat /\
  eac (143050 / 10000) (73872 / 10000) (sub_radius o j i) = Fin c /\ elem NaN (nth 0 out []) j i <> Fin (elem 0 phi j i * c).
Proof. exact once_refuted. Qed.
Print Assumptions C55_once_refuted.
(** The call returns for every list of elevations. *)
Theorem C55_returns o g alphas use : (1 <= ac_order o)%nat -> 0 < ac_pr o -> (ac_N_K o <= length g)%nat ->
  (forall k, (k < ac_N_K o)%nat -> (3 <= length (nth k g []))%nat) -> exists out, generate_phase_pr o g alphas use = Ok out.
Proof. exact (gen_ok o g alphas use). Qed.
Print Assumptions C55_returns.
Example C55_nonvacuous : 0 <= ac_sr (demo_act 2 3) /\ ac_sr (demo_act 2 3) * sqrt 2 <= 73872 / 10000 /\
  exists out, generate_phase_pr (demo_act 2 3) defocus_g [Deg 10; Rad 1; Plain 2] true = Ok out.
Proof.
  split; [apply demo_sr|]. split; [apply demo_sr|]. apply gen_ok; [cbn; lia|cbn; lra|cbn; lia|].
  intros k Hk. change (ac_N_K (demo_act 2 3)) with 6%nat in Hk. do 6 (destruct k as [|k]; [cbn; lia|]). lia.
Qed.

(** C56. The correction is the cosine of the tilt of the ellipse. *)
Theorem C56_tilt a b r : 0 < a -> 0 < b -> 0 < r < b ->
  exists d, derivable_pt_lim (ellipse a b) r d /\ eac a b r = Fin (1 / sqrt (1 + d ^ 2)).
Proof. exact (eac_tilt_std a b r). Qed.
Print Assumptions C56_tilt.
Theorem C56_axis a b : 0 < a -> 0 < b -> eac a b 0 = Fin 1.
Proof. exact (eac_axis a b). Qed.
Print Assumptions C56_axis.
Theorem C56_rim a b : 0 < a -> 0 < b -> eac a b b = Fin 0.
Proof. exact (eac_rim a b). Qed.
Print Assumptions C56_rim.
Theorem C56_beyond a b r : 0 < b -> b < r -> eac a b r = NaN.
Proof. exact (eac_beyond a b r). Qed.
Print Assumptions C56_beyond.
Theorem C56_decreasing a b r r' : 0 < a -> 0 < b -> 0 <= r < r' -> r' <= b ->
  exists c c', eac a b r = Fin c /\ eac a b r' = Fin c' /\ 0 <= c' < c /\ c <= 1.
Proof. exact (eac_decreasing a b r r'). Qed.
Print Assumptions C56_decreasing.
Theorem C56_range a b r : 0 < a -> 0 < b -> 0 <= r <= b -> exists c, eac a b r = Fin c /\ 0 <= c <= 1.
Proof. exact (eac_range a b r). Qed.
Print Assumptions C56_range.
(** The default grid of the object. *)
Theorem C56_grid o : rect (ac_resolution o) (ac_resolution o) (ellipsoidal_actuator_correction o) /\
  forall j i, (j < ac_resolution o)%nat -> (i < ac_resolution o)%nat ->
    elem NaN (ellipsoidal_actuator_correction o) j i = eac (143050 / 10000) (73872 / 10000) (sub_radius o j i).
Proof. exact (correction_spec o). Qed.
Print Assumptions C56_grid.
Example C56_nonvacuous : 0 < 143050 / 10000 /\ 0 < 73872 / 10000 /\ 0 < 2 < 73872 / 10000.
Proof. lra. Qed.

(** C57. The gravity model. *)
Theorem C57_linear g g' s t alpha K K' : length g = 3%nat -> length g' = 3%nat -> grav_deformation g alpha = Ok K -> grav_deformation g' alpha = Ok K' ->
  grav_deformation (map2 (fun a b => s * a + t * b) g g') alpha = Ok (s * K + t * K').
Proof. exact (grav_linear g g' s t alpha K K'). Qed.
Print Assumptions C57_linear.
Theorem C57_degrees g x : grav_deformation g (Deg x) = grav_deformation g (Rad (x * (PI / 180))).
Proof. exact (grav_degrees g x). Qed.
Print Assumptions C57_degrees.
Theorem C57_plain g x : grav_deformation g (Plain x) = grav_deformation g (Rad x).
Proof. exact (grav_plain g x). Qed.
Print Assumptions C57_plain.
Theorem C57_periodic g x (k : Z) : grav_deformation g (Deg (x + 360 * IZR k)) = grav_deformation g (Deg x).
Proof. exact (grav_period g x k). Qed.
Print Assumptions C57_periodic.
(** Three elevations determine the coefficients. *)
Theorem C57_determined g g' a b c : length g = 3%nat -> length g' = 3%nat ->
  (forall x y, In (x, y) [(a, b); (a, c); (b, c)] -> angle_value x <> angle_value y /\ Rabs (angle_value x - angle_value y) < 2 * PI) ->
  grav_deformation g a = grav_deformation g' a -> grav_deformation g b = grav_deformation g' b -> grav_deformation g c = grav_deformation g' c ->
  g = g'.
Proof. exact (grav_unique g g' a b c). Qed.
Print Assumptions C57_determined.
Theorem C57_short g alpha : (length g < 3)%nat -> grav_deformation g alpha = Err IndexError.
Proof. exact (grav_short g alpha). Qed.
Print Assumptions C57_short.
Example C57_nonvacuous : grav_deformation [1; 2; 3] (Deg 0) = Ok (1 * sin (deg2rad 0) + 2 * cos (deg2rad 0) + 3) /\
  forall x y, In (x, y) [(Deg 10, Deg 50); (Deg 10, Deg 80); (Deg 50, Deg 80)] -> angle_value x <> angle_value y /\ Rabs (angle_value x - angle_value y) < 2 * PI.
Proof.
  split; [reflexivity|]. assert (P := PI_RGT_0).
  intros x y [E|[E|[E|[] ] ] ]; injection E as <- <-; cbn [angle_value]; unfold deg2rad; (split; [nra|]); apply Rabs_def1; nra.
Qed.

(** C58. Whatever the optimiser answers, the rows are complete, and free of piston and tilt with fem=True. *)
Theorem C58_shape solve o maps alphas fem rows : act_fit_zpoly solve o maps alphas fem = Ok rows ->
  length rows = length alphas /\ Forall (fun r => length r = ac_N_K o) rows /\ (fem = true -> Forall (fun r => firstn 3 r = [0; 0; 0]) rows).
Proof. exact (fit_shape solve o maps alphas fem rows). Qed.
Print Assumptions C58_shape.
Theorem C58_returns solve o maps alphas fem : (1 <= ac_order o)%nat -> (length alphas <= length maps)%nat ->
  (forall f x0, exists x, solve f x0 = Ok x /\ length x = length x0) -> exists rows, act_fit_zpoly solve o maps alphas fem = Ok rows.
Proof. exact (fit_succeeds solve o maps alphas fem). Qed.
Print Assumptions C58_returns.
(** The minimised residual vanishes exactly at the coefficients whose phase is the map. *)
Theorem C58_residual o fem data K : all_zero (residual_phase o fem data K) <->
  exists x y phi, phase (if fem then [0; 0; 0] ++ K else K) (ac_pr o) false (negb fem) (ac_resolution o) = Ok (x, y, phi) /\ data = concat phi.
Proof. exact (residual_zero o fem data K). Qed.
Print Assumptions C58_residual.
Example C58_nonvacuous : exists rows, act_fit_zpoly (fun _ x0 => Ok x0) (demo_act 2 3) [ [ [1; 2; 3]; [4; 5; 6]; [7; 8; 9] ] ] [Deg 32] true = Ok rows.
Proof. apply fit_succeeds; [cbn; lia|cbn; lia|]. intros f x0. exists x0. auto. Qed.

(** C59. The layout of the actuators. *)
Theorem C59_position i k : (i < 4)%nat -> (k < 24)%nat ->
  nth (24 * i + k) act_x 0 = ring_radius i * cos (ring_angle k) /\ nth (24 * i + k) act_y 0 = ring_radius i * sin (ring_angle k).
Proof. exact (act_position i k). Qed.
Print Assumptions C59_position.
Theorem C59_within n : (n < 96)%nat -> (nth n act_x 0) ^ 2 + (nth n act_y 0) ^ 2 <= (3250 / 1000) ^ 2.
Proof. exact (act_within n). Qed.
Print Assumptions C59_within.
Theorem C59_distinct n m : (n < 96)%nat -> (m < 96)%nat -> nth n act_x 0 = nth m act_x 0 -> nth n act_y 0 = nth m act_y 0 -> n = m.
Proof. exact (act_distinct n m). Qed.
Print Assumptions C59_distinct.
Theorem C59_quarter i k : (i < 4)%nat -> (k < 24)%nat ->
  let n := (24 * i + k)%nat in let n' := (24 * i + (k + 6) mod 24)%nat in
  (n' < 96)%nat /\ nth n' act_x 0 = - nth n act_y 0 /\ nth n' act_y 0 = nth n act_x 0.
Proof. exact (act_quarter i k). Qed.
Print Assumptions C59_quarter.
Example C59_nonvacuous : length act_x = 96%nat /\ length act_y = 96%nat /\ (3 < 4)%nat /\ (23 < 24)%nat.
Proof. rewrite act_x_length, act_y_length. lia. Qed.

(** C65. Two coefficient lists with the same sampled phase agree, except for the coefficients that piston=False and tilt=False switch off. *)
Theorem C65_determined K K' n pr piston tilt m : (2 * length K = (n + 1) * (n + 2))%nat -> (1 <= n)%nat -> length K' = length K -> 0 < pr ->
  (3 * (n + 1) <= 2 * (m - 1))%nat -> phase K pr piston tilt m = phase K' pr piston tilt m ->
  forall k, (k < length K)%nat -> (k = 0%nat -> piston = true) -> (k = 1%nat \/ k = 2%nat -> tilt = true) -> nth k K 0 = nth k K' 0.
Proof. exact (phase_determines K K' n pr piston tilt m). Qed.
Print Assumptions C65_determined.
Theorem C65_injective K K' n pr m : (2 * length K = (n + 1) * (n + 2))%nat -> (1 <= n)%nat -> length K' = length K -> 0 < pr ->
  (3 * (n + 1) <= 2 * (m - 1))%nat -> phase K pr true true m = phase K' pr true true m -> K = K'.
Proof. exact (phase_injective K K' n pr m). Qed.
Print Assumptions C65_injective.
Example C65_nonvacuous : (2 * length [1; 2; 3; 4; 5; 6] = (2 + 1) * (2 + 2))%nat /\ (3 * (2 + 1) <= 2 * (6 - 1))%nat /\ 0 < 50 /\
  phase [1; 2; 3; 4; 5; 6] 50 false true 6 = phase [7; 2; 3; 4; 5; 6] 50 false true 6.
Proof. split; [reflexivity|]. split; [lia|]. split; [lra|]. reflexivity. Qed.

(** C66. fit_all applied to generated maps returns the coefficients they were generated from, with piston and tilt set to zero. *)
Theorem C66_fit_all solve o g alphas maps gs K d : exact_solver solve -> (1 <= ac_order o)%nat -> 0 < ac_pr o ->
  (3 * (ac_order o + 1) <= 2 * (ac_resolution o - 1))%nat -> three_elevations alphas ->
  (forall k, (k < ac_N_K o)%nat -> length (nth k g []) = 3%nat) ->
  generate_phase_pr o g alphas false = Ok (map (map2d Fin) maps) -> act_fit_all solve o maps alphas = Ok (gs, K) ->
  (length gs = ac_N_K o /\ forall k, (k < ac_N_K o)%nat -> nth k gs [] = if Nat.ltb k 3 then [0; 0; 0] else nth k g []) /\
  rect (length alphas) (ac_N_K o) K /\ forall a k, (a < length alphas)%nat -> (k < ac_N_K o)%nat ->
    if Nat.ltb k 3 then elem 0 K a k = 0 else grav_deformation (nth k g []) (nth a alphas d) = Ok (elem 0 K a k).
Proof. exact (fit_all_generated solve o g alphas maps gs K d). Qed.
Print Assumptions C66_fit_all.
Theorem C66_fit_zpoly solve o g alphas maps rows d : exact_solver solve -> (1 <= ac_order o)%nat -> 0 < ac_pr o ->
  (3 * (ac_order o + 1) <= 2 * (ac_resolution o - 1))%nat ->
  generate_phase_pr o g alphas false = Ok (map (map2d Fin) maps) -> act_fit_zpoly solve o maps alphas true = Ok rows ->
  rect (length alphas) (ac_N_K o) rows /\ forall a k, (a < length alphas)%nat -> (k < ac_N_K o)%nat ->
    if Nat.ltb k 3 then elem 0 rows a k = 0 else grav_deformation (nth k g []) (nth a alphas d) = Ok (elem 0 rows a k).
Proof. exact (fit_coefficients solve o g alphas maps rows d). Qed.
Print Assumptions C66_fit_zpoly.
Example C66_nonvacuous : exact_solver (search [ [0; 1; 0]; [0; 0; 0]; [0; 0; 1] ]) /\ three_elevations demo_elevations /\
  (forall k, (k < ac_N_K (demo_act 2 6))%nat -> length (nth k defocus_g []) = 3%nat) /\
  exists maps gs K, generate_phase_pr (demo_act 2 6) defocus_g demo_elevations false = Ok (map (map2d Fin) maps) /\
    act_fit_all (search [ [0; 1; 0]; [0; 0; 0]; [0; 0; 1] ]) (demo_act 2 6) maps demo_elevations = Ok (gs, K).
Proof.
  split; [apply search_exact|]. split; [exact demo_three|]. split; [|exact demo_fit_all].
  intros k Hk. change (ac_N_K (demo_act 2 6)) with 6%nat in Hk. do 6 (destruct k as [|k]; [reflexivity|]). lia.
Qed.

(** C67. A look-up file cut short anywhere: reading it raises, or returns the table with at most the very last number wrong, or (cut after the first line) repeats the first actuator. *)
Theorem C67_truncated fname z p q s alphas table s' : table_text z = p ^^ q -> q <> "" -> s fname = Some (File (Text p)) ->
  run (read_lookup_plain fname) s = (Ok (alphas, table), s') ->
  s' = s /\ alphas = [7; 10; 20; 30; 32; 40; 50; 60; 70; 80; 90] /\ rect 11 96 table /\
  ((forall j k, (j < 11)%nat -> (k < 96)%nat -> (j, k) <> (10, 95)%nat -> elem 0 table j k = IZR (z j k)) \/
   (p = table_line 0 (map (fun j => z j 0%nat) (seq 0 11)) /\ forall j k, (j < 11)%nat -> (k < 96)%nat -> elem 0 table j k = IZR (z j 0%nat))).
Proof. exact (truncated fname z p q s alphas table s'). Qed.
Print Assumptions C67_truncated.
Theorem C67_unwritten fname s : s fname = Some (File Partial) -> run (read_lookup_plain fname) s = (Err FileNotFoundError, s).
Proof. exact (unwritten fname s). Qed.
Print Assumptions C67_unwritten.
(** A table with too few columns raises IndexError and leaves such a file behind. *)
Theorem C67_short_table sp o fname T n s : rect 11 n T -> (n < 96)%nat -> s (parent fname) = Some Dir -> s fname <> Some Dir ->
  exists s' text z, run (write_lookup sp o fname (Map2 T)) s = (Err IndexError, s') /\ s' fname = Some (File (Text text)) /\
    (forall p, p <> fname -> s' p = s p) /\ (exists q, table_text z = text ^^ q /\ q <> "") /\
    text = fold_right String.append "" (map (fun k => table_line k (map (fun j => z j k) (seq 0 11))) (seq 0 n)).
Proof. exact (short_table sp o fname T n s). Qed.
Print Assumptions C67_short_table.
Example C67_nonvacuous : exists p q, table_text (fun j k => Z.of_nat (j + k)) = p ^^ q /\ q <> "" /\
  rect 11 95 (map (fun _ => map (fun _ => Fin 1) (seq 0 95)) (seq 0 11)) /\
  exists s', run (read_lookup_plain ["t"]) (fun q' => if path_eq_dec q' ["t"] then Some (File (Text p)) else None) = (Ok (alpha_lookup, map (fun j => repeat (IZR (Z.of_nat j)) 96) (seq 0 11)), s').
Proof.
  exists (table_line 0 (map (fun j => Z.of_nat (j + 0)) (seq 0 11))). eexists. split; [unfold table_text; cbn [seq map fold_right]; rewrite !PStr.sapp_assoc; reflexivity|].
  split; [discriminate|]. split; [split; [reflexivity|]; apply Forall_map, Forall_forall; intros; rewrite map_length; apply seq_length|].
  eexists. vm_compute table_line. reflexivity.
Qed.

(** C68. What the constructor derives from a look-up file: eleven finite maps, zero from the rim outwards, and their phases. *)
Theorem C68_constructor gd o fname z s : s fname = Some (File (Text (table_text z))) ->
  exists maps, run (act_init gd o fname) s = (Ok (alpha_lookup, maps, transform o (Map3 (map (map2d Fin) maps))), s) /\ length maps = 11%nat /\
  forall a, (a < 11)%nat -> rect (ac_resolution o) (ac_resolution o) (nth a maps []) /\
    forall j i, (j < ac_resolution o)%nat -> (i < ac_resolution o)%nat ->
      let x := nth i (linspace (- ac_sr o) (ac_sr o) (ac_resolution o)) 0 in
      let y := nth j (linspace (- ac_sr o) (ac_sr o) (ac_resolution o)) 0 in
      elem 0 (nth a maps []) j i = if Rle_dec (ac_sr o ^ 2) (x ^ 2 + y ^ 2) then 0
        else nan_to_num (gd (combine act_x act_y) (map (fun k => IZR (z a k)) (seq 0 96)) (x, y)).
Proof. exact (init_maps gd o fname z s). Qed.
Print Assumptions C68_constructor.
(** The contour levels of the displacement plot are the phase levels -2, -1.5, ..., 2 rad only for two reflections. *)
Theorem C68_contours o : usable_act o -> Sorted Rle (plot_levels o) /\ length (plot_levels o) = 9%nat /\
  forall l, In l (plot_levels o) <-> exists i, (i < 9)%nat /\ l * radians_per_um o = (-2 + INR i / 2) * (ac_n_reflections o / 2).
Proof. exact (levels_phase o). Qed.
Print Assumptions C68_contours.
Example C68_nonvacuous : usable_act (demo_act 2 3) /\ ac_n_reflections (demo_act 2 3) / 2 = 1.
Proof. split; [apply demo_usable|cbn; lra]. Qed.
