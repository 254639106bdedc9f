(** Property theorems C93: the figures of scripts/create_lookup.py. *)
From Coq Require Import String Ascii List ZArith Lra Lia.
From Verif Require Import PyBase Num MMath MAperture MFs MOut MAct MTab MPlot MActPlot MScript SOut SFit SZernike SAct SAct2 STab SPlot SLookup SLookFig PFs PAct4 PAct6 PAct7 PLookup PLookup2 PLookup3 PLookFig PLookFig2.
Import ListNotations.
Open Scope R_scope.
Open Scope string_scope.
Open Scope list_scope.

(** C93. When the script ends, the first figure shows the modelled phases over the dish, panel j those of elevation j; the
    second is the plot of the object made from the old table, the third that of the object made from the new table
    (what these show is C88_lookup). *)
Theorem C93_maps k o runs base old dir s s' : run (create_lookup k o runs base old dir) s = (Ok tt, s') -> 0 < ac_pr o ->
  exists figs tab rows Ks g phases, run (create_lookup_plots k o runs base old dir) s = (Ok figs, s') /\
    fst (run (table_pyoof_out (lk_isot k) runs (ac_order o)) s) = Ok (ac_order o, tab) /\ rows = filter selected_row (lk_sort k tab) /\
    Forall2 (row_coeffs s base (ac_order o) (ac_N_K o)) rows Ks /\
    act_fit_grav (lk_solve k) o Ks (elevations rows) = Ok g /\ generate_phase_pr o g (map Deg [7; 10; 20; 30; 32; 40; 50; 60; 70; 80; 90]) true = Ok phases /\
    fg_title (lp_model figs) = "Phase-error model" /\ length (fg_panels (lp_model figs)) = 11%nat /\
    (forall j, (j < 11)%nat -> exists pn, nth_error (fg_panels (lp_model figs)) j = Some pn /\
       portrays pn (linspace (- ac_pr o) (ac_pr o) (ac_resolution o)) (linspace (- ac_pr o) (ac_pr o) (ac_resolution o)) (elem NaN (nth j phases [])) /\
       pn_title pn = "$\alpha=" ^^ lk_fmt k (nth j [7; 10; 20; 30; 32; 40; 50; 60; 70; 80; 90] 0) ^^ "$ deg") /\
    run (plot_lookup (lk_fmt k) (lk_griddata k) o old (16, 11 / 2) (Some "Phase-error look-up table")) s = (Ok (lp_lookup figs), s) /\
    run (plot_lookup (lk_fmt k) (lk_griddata k) o (dir ++ ["FEM_OOF_Table_" ^^ lk_today k ^^ ".dat"]) (16, 11 / 2) (Some "Phase-error look-up table minus phase-error model (FEM + OOF corrections)")) s' = (Ok (lp_correction figs), s').
Proof. exact (drawn_maps k o runs base old dir s s'). Qed.
Print Assumptions C93_maps.
(** The fourth has one panel per Zernike coefficient of order two and more: its points are the coefficients of the observations used, its curve is the fitted gravity law. *)
Theorem C93_gravity k o runs base old dir s s' : run (create_lookup k o runs base old dir) s = (Ok tt, s') ->
  exists figs tab rows Ks g, run (create_lookup_plots k o runs base old dir) s = (Ok figs, s') /\
    fst (run (table_pyoof_out (lk_isot k) runs (ac_order o)) s) = Ok (ac_order o, tab) /\ rows = filter selected_row (lk_sort k tab) /\
    Forall2 (row_coeffs s base (ac_order o) (ac_N_K o)) rows Ks /\
    act_fit_grav (lk_solve k) o Ks (elevations rows) = Ok g /\
    length (lp_gravfit figs) = (ac_N_K o - 3)%nat /\
    forall i l, (2 <= i <= ac_order o)%nat -> admissible (Z.of_nat i) l ->
      exists p, nth_error (lp_gravfit figs) (coeff_pos i l - 3) = Some p /\ gravity_panel rows Ks (nth (coeff_pos i l) g []) (ac_resolution o) i l p.
Proof. exact (drawn_gravity k o runs base old dir s s'). Qed.
Print Assumptions C93_gravity.
(** A coefficient that follows a gravity law h at three elevations at least: the points and the curve of its panel lie on h. *)
Theorem C93_follows k o runs base old dir s s' tab h i l : run (create_lookup k o runs base old dir) s = (Ok tt, s') -> exact_solver (lk_solve k) ->
  fst (run (table_pyoof_out (lk_isot k) runs (ac_order o)) s) = Ok (ac_order o, tab) ->
  let rows := filter selected_row (lk_sort k tab) in
  three_elevations (elevations rows) -> (2 <= i <= ac_order o)%nat -> admissible (Z.of_nat i) l -> length h = 3%nat ->
  (forall r K, In r rows -> row_coeffs s base (ac_order o) (ac_N_K o) r K -> grav_deformation h (Deg (tr_meanel r)) = Ok (nth (coeff_pos i l) K 0)) ->
  exists figs p, run (create_lookup_plots k o runs base old dir) s = (Ok figs, s') /\ nth_error (lp_gravfit figs) (coeff_pos i l - 3) = Some p /\
    length (gp_points p) = length rows /\ (forall e y w, In (e, y, w) (gp_points p) -> exists v, grav_deformation h (Deg e) = Ok v /\ y = 2 * PI * v) /\
    length (gp_x p) = ac_resolution o /\ length (gp_y p) = ac_resolution o /\
    forall m, (m < ac_resolution o)%nat -> exists v, grav_deformation h (Deg (nth m (gp_x p) 0)) = Ok v /\ nth m (gp_y p) 0 = 2 * PI * v.
Proof. intros H. exact (drawn_law k o runs base old dir s s' H tab h i l). Qed.
Print Assumptions C93_follows.
(** Orders above five: the figure has too few panels, the script stops with an exception and writes no table. *)
Theorem C93_order_six_refuted k o runs base old dir s : (6 <= ac_order o)%nat -> exists e, run (create_lookup k o runs base old dir) s = (Err e, s).
Proof. exact (order_six k o runs base old dir s). Qed.
Print Assumptions C93_order_six_refuted.
Example C93_nonvacuous : exists s' tab, let k := sky_oracles 1 in let o := demo_act 2 3 in let s := sky 1 (fun j a => Z.of_nat (j + a)) in
  run (create_lookup k o sky_runs ["out"] ["old.dat"] ["new"]) s = (Ok tt, s') /\ 0 < ac_pr o /\ exact_solver (lk_solve k) /\
  fst (run (table_pyoof_out (lk_isot k) sky_runs (ac_order o)) s) = Ok (ac_order o, tab) /\ three_elevations (elevations (filter selected_row (lk_sort k tab))) /\
  admissible (Z.of_nat 2) 0 /\ coeff_pos 2 0 = 4%nat /\
  forall r K, In r (filter selected_row (lk_sort k tab)) -> row_coeffs s ["out"] (ac_order o) (ac_N_K o) r K -> grav_deformation [0; 0; 1] (Deg (tr_meanel r)) = Ok (nth (coeff_pos 2 0) K 0).
Proof.
  destruct (sky_runs_ok 1 (fun j a => Z.of_nat (j + a))) as [s' H]. destruct (sky_table 1 (fun j a => Z.of_nat (j + a))) as (tab & E & _ & El & En & Fi).
  exists s', tab. cbv zeta. split; [exact H|]. split; [cbn; lra|]. split; [apply search_exact|]. split; [exact E|]. change (lk_sort (sky_oracles 1) tab) with tab. rewrite Fi, El. split; [exact demo_three|].
  split; [split; [cbn; lia|exists 1%Z; reflexivity]|]. split; [reflexivity|]. intros r K Hr HK. apply (sky_coeffs 1 _ r K) in HK; [|rewrite <- En; apply in_map; exact Hr]. subst K. rewrite grav_ok. f_equal. change (coeff_pos 2 0) with 4%nat. cbn [nth]. ring.
Qed.
