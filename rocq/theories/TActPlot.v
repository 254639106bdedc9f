(** Property theorems C88: pyoof.actuator.EffelsbergActuator.plot. *)
From Coq Require Import String List Sorted Lia.
From Verif Require Import PyBase PyLib Num MMath MAperture MFs MAct MPlot MActPlot SAct SAct2 SPlot PFs PDemo PAct PAct6 PAct8 PActPlot.
Import ListNotations.
Open Scope R_scope.
Open Scope string_scope.
Open Scope list_scope.

(** C88. Eleven square maps give eleven panels, in order: each shows its map over the dish (phases) or over the
    sub-reflector (displacements), is labelled with its elevation, and shares the colour scale of all the data. *)
Theorem C88_maps fmt o (rad : bool) data size title : let radius := if rad then ac_pr o else ac_sr o in
  let x := linspace (- radius) radius (ac_resolution o) in
  0 < radius -> (2 <= ac_resolution o)%nat -> length data = 11%nat -> Forall (rect (ac_resolution o) (ac_resolution o)) data ->
  exists vmin vmax panels, act_plot fmt o rad data size title = Ok {| fg_size := size; fg_title := match title with Some t => t | None => "" end; fg_panels := panels |} /\
    length panels = 11%nat /\
    (forall w, concat (concat data) = map Fin w -> exists lo hi, vmin = Fin lo /\ vmax = Fin hi /\ extent_of (fun t => In t w) lo hi) /\
    forall j, (j < 11)%nat -> exists pn, nth_error panels j = Some pn /\ portrays pn x x (elem NaN (nth j data [])) /\
      pn_title pn = "$\alpha=" ^^ fmt (nth j [7; 10; 20; 30; 32; 40; 50; 60; 70; 80; 90] 0) ^^ "$ deg" /\
      im_x0 (pn_image pn) = - radius /\ im_x1 (pn_image pn) = radius /\ im_y0 (pn_image pn) = - radius /\ im_y1 (pn_image pn) = radius /\
      im_scale (pn_image pn) = Some (vmin, vmax).
Proof. exact (plot_maps fmt o rad data size title). Qed.
Print Assumptions C88_maps.

(** The contour lines: phases -2, -1.5, ..., 2 rad, or the displacements that two reflections turn into them. *)
Theorem C88_contours fmt o (rad : bool) data size title fig : usable_act o -> act_plot fmt o rad data size title = Ok fig ->
  Forall (fun pn => exists ct lv, pn_contour pn = Some ct /\ ct_levels ct = map Fin lv /\ Sorted Rle lv /\ length lv = 9%nat /\
    forall l, In l lv <-> exists i, (i < 9)%nat /\ (if rad then l = -2 + INR i / 2 else l * radians_per_um o = (-2 + INR i / 2) * (ac_n_reflections o / 2))) (fg_panels fig).
Proof. exact (plot_contours fmt o rad data size title fig). Qed.
Print Assumptions C88_contours.

(** Fewer than eleven maps, no map at all, or a map of another size: an exception, never a partial figure. *)
Theorem C88_too_few fmt o rad data size title : (length data < 11)%nat -> Forall (rect (ac_resolution o) (ac_resolution o)) data -> (2 <= ac_resolution o)%nat ->
  act_plot fmt o rad data size title = Err (if (length data =? 0)%nat then ValueError else IndexError).
Proof. exact (plot_too_few fmt o rad data size title). Qed.
Print Assumptions C88_too_few.
Theorem C88_complete fmt o rad data size title fig rows cols : Forall (rect rows cols) data -> act_plot fmt o rad data size title = Ok fig ->
  (2 <= ac_resolution o)%nat /\ rows = ac_resolution o /\ cols = ac_resolution o /\ (11 <= length data)%nat /\ length (fg_panels fig) = 11%nat.
Proof. exact (plot_complete fmt o rad data size title fig rows cols). Qed.
Print Assumptions C88_complete.

(** The object made from a look-up file, plotted without data: panel a shows the phases of elevation a of that
    file over the dish, and nothing on disk changes. *)
Theorem C88_lookup fmt gd o fname size title z s : 0 < ac_pr o -> (2 <= ac_resolution o)%nat -> s fname = Some (File (Text (table_text z))) ->
  exists maps fig, run (plot_lookup fmt gd o fname size title) s = (Ok fig, s) /\ length maps = 11%nat /\ length (fg_panels fig) = 11%nat /\
  forall a, (a < 11)%nat ->
    (rect (ac_resolution o) (ac_resolution o) (nth a maps []) /\
     forall j i, (j < ac_resolution o)%nat -> (i < ac_resolution o)%nat ->
      let x := nth i (linspace (- ac_sr o) (ac_sr o) (ac_resolution o)) 0 in
      let y := nth j (linspace (- ac_sr o) (ac_sr o) (ac_resolution o)) 0 in
      elem 0 (nth a maps []) j i = if Rle_dec (ac_sr o ^ 2) (x ^ 2 + y ^ 2) then 0
        else nan_to_num (gd (combine act_x act_y) (map (fun k => IZR (z a k)) (seq 0 96)) (x, y))) /\
    exists pn f, nth_error (fg_panels fig) a = Some pn /\
      portrays pn (linspace (- ac_pr o) (ac_pr o) (ac_resolution o)) (linspace (- ac_pr o) (ac_pr o) (ac_resolution o)) f /\
      (forall r c, (r < ac_resolution o)%nat -> (c < ac_resolution o)%nat ->
         f r c = let '(r', c') := turned_from (ac_nrot o) (ac_resolution o) (ac_resolution o) r c in Fin (radians_per_um o * elem 0 (nth a maps []) r' c')) /\
      pn_title pn = "$\alpha=" ^^ fmt (nth a [7; 10; 20; 30; 32; 40; 50; 60; 70; 80; 90] 0) ^^ "$ deg".
Proof. exact (plot_lookup_spec fmt gd o fname size title z s). Qed.
Print Assumptions C88_lookup.
Definition C88_data (j : nat) : list (list num) := [[Fin (INR j); Fin 1]; [Fin (-1); NaN]].
Example C88_nonvacuous : Forall (rect (ac_resolution (demo_act 2 2)) (ac_resolution (demo_act 2 2))) (map C88_data (seq 0 11)) /\ length (map C88_data (seq 0 11)) = 11%nat /\
  0 < ac_pr (demo_act 2 2) /\ 0 < ac_sr (demo_act 2 2) /\ usable_act (demo_act 2 2) /\ C88_data 3 <> C88_data 4.
Proof.
  split; [apply Forall_forall; intros m Hm; apply in_map_iff in Hm; destruct Hm as (j & <- & _); split; [reflexivity|repeat constructor]|]. split; [reflexivity|].
  split; [cbn; lra|]. split; [cbn; lra|]. split; [apply demo_usable|]. intros E. injection E as E. cbn in E. lra.
Qed.
Definition C88_lookup_state (z : nat -> nat -> Z) : fs := fun p => if path_eq_dec p ["lookup"] then Some (File (Text (table_text z))) else None.
Example C88_lookup_nonvacuous : let z := fun a k => (Z.of_nat a * 10 - Z.of_nat k)%Z in
  C88_lookup_state z ["lookup"] = Some (File (Text (table_text z))) /\ 0 < ac_pr (demo_act 2 2) /\ (2 <= ac_resolution (demo_act 2 2))%nat.
Proof. cbv zeta. unfold C88_lookup_state. destruct (path_eq_dec ["lookup"] ["lookup"]) as [_|N]; [|contradiction]. split; [reflexivity|]. split; [cbn; lra|cbn; lia]. Qed.
