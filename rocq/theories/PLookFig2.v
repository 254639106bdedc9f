(** The figures of scripts/create_lookup.py, put together. *)
From Coq Require Import String Ascii List ZArith Lia Lra.
From Verif Require Import PyBase PyLib Num MZernike MMath MAperture MFs MOut MAct MTab MAux MPlot MActPlot MScript SMath SOut SFit SZernike SAct SAct2 STab SPlot SLookup SLookFig PEnum PStr PFs PFit PFit5 PPhase PPhase2 PAct PAct2 PAct3 PAct4 PAct5 PAct7 PAct8 PTab PActPlot PLookup PLookFig PLookup2.
Import ListNotations.
Open Scope R_scope.
Open Scope string_scope.
Open Scope list_scope.
Open Scope prog_scope.

Lemma init_same gd o f s s' i : s f = s' f -> run (act_init gd o f) s = (Ok i, s) -> run (act_init gd o f) s' = (Ok i, s').
Proof.
  intros E H. assert (X : fst (run (act_init gd o f) s') = fst (run (act_init gd o f) s)).
  { assert (R : fst (run (read_text f) s') = fst (run (read_text f) s)) by (unfold read_text; rewrite !run_read, E; destruct (s' f) as [[|[]]|]; reflexivity).
    pose proof (run_read_text f s) as S1. pose proof (run_read_text f s') as S2. unfold act_init, read_lookup_interp. rewrite !run_bind.
    destruct (run (read_text f) s) as [[t|e] s1], (run (read_text f) s') as [[t'|e'] s1']; cbn in R, S1, S2; subst; inversion R; subst; [|reflexivity]. rewrite !run_lift. destruct (bind _ _); reflexivity. }
  rewrite H in X. cbn [fst] in X. pose proof (init_state gd o f s') as Y. destruct (run (act_init gd o f) s') as [r s1]. cbn in X, Y. subst. reflexivity.
Qed.
Section drawn.
Variables (k : lookup_oracles) (o : actuator) (runs : list path) (base old dir : path) (s s' : fs).
Hypothesis Hrun : run (create_lookup k o runs base old dir) s = (Ok tt, s').

Lemma drawn_maps : 0 < ac_pr o ->
  exists figs tab rows Ks g phases, run (create_lookup_plots k o runs base old dir) s = (Ok figs, s') /\
    fst (run (table_pyoof_out (lk_isot k) runs (ac_order o)) s) = Ok (ac_order o, tab) /\ rows = filter selected_row (lk_sort k tab) /\
    Forall2 (row_coeffs s base (ac_order o) (ac_N_K o)) rows Ks /\
    act_fit_grav (lk_solve k) o Ks (elevations rows) = Ok g /\ generate_phase_pr o g (map Deg alpha_lookup) true = Ok phases /\
    fg_title (lp_model figs) = "Phase-error model" /\ length (fg_panels (lp_model figs)) = 11%nat /\
    (forall j, (j < 11)%nat -> exists pn, nth_error (fg_panels (lp_model figs)) j = Some pn /\
       portrays pn (linspace (- ac_pr o) (ac_pr o) (ac_resolution o)) (linspace (- ac_pr o) (ac_pr o) (ac_resolution o)) (elem NaN (nth j phases [])) /\
       pn_title pn = "$\alpha=" ^^ lk_fmt k (nth j alpha_lookup 0) ^^ "$ deg") /\
    run (plot_lookup (lk_fmt k) (lk_griddata k) o old (16, 11 / 2) (Some "Phase-error look-up table")) s = (Ok (lp_lookup figs), s) /\
    run (plot_lookup (lk_fmt k) (lk_griddata k) o (dir ++ [lookup_name k]) (16, 11 / 2) (Some "Phase-error look-up table minus phase-error model (FEM + OOF corrections)")) s' = (Ok (lp_correction figs), s').
Proof.
  intros Hpr. pose proof Hrun as H. apply create_plots in H. destruct H as [figs HP]. pose proof HP as H. apply plots_inv in H.
  destruct H as (tab & rows & Ks & g & phases & sd & lk & T & s3 & Km & i0 & i1 & (A1 & A2 & A3 & A4 & A5 & A6) & B1 & B2 & B3 & B4 & B5 & B6 & B7 & B8 & B9 & B10 & B11 & B12).
  assert (En : fst tab = ac_order o).
  { unfold table_pyoof_out in A1. rewrite run_bind in A1. destruct (run (table_rows runs (ac_order o)) s) as [[rs|e] s9]; [|discriminate A1]. destruct (forallb _ rs); cbn in A1; inversion A1; reflexivity. }
  destruct (gen_shape o g _ phases A6) as [Lp Rp]. destruct (plot_complete _ _ _ _ _ _ _ _ _ Rp B7) as (Hres & _).
  destruct (plot_maps (lk_fmt k) o true phases (16, 11 / 2) (Some "Phase-error model") Hpr Hres Lp Rp) as (vmin & vmax & pns & EF & L & _ & HP').
  rewrite EF in B7. apply Ok_inj in B7.
  exists figs, (snd tab), rows, Ks, g, phases. split; [exact HP|]. split; [rewrite A1, <- En; destruct tab; reflexivity|]. repeat (split; [assumption|]). rewrite <- B7. cbn [fg_title fg_panels].
  split; [reflexivity|]. split; [exact L|]. split; [intros j Hj; destruct (HP' j Hj) as (pn & P1 & P2 & P3 & _); exists pn; auto|]. split; [apply (own_plot _ _ _ _ _ _ _ _ B8); exact B9|].
  refine (proj1 (own_plot _ _ _ _ _ s' i1 _ (init_same _ _ _ s3 s' i1 _ B10)) B11).
  pose proof (only_run _ _ (write_pdfs dir (lookup_figures k)) s3 (pdfs_only (fun _ => False) dir (lookup_figures k))) as O. rewrite B5 in O. cbn [snd] in O. symmetry.
  apply O; [|right; auto]. intros (f & Hf & E). apply app_inj_tail in E. destruct E as [_ E]. apply (not_figure k). rewrite E. exact Hf.
Qed.
Lemma drawn_gravity : exists figs tab rows Ks g, run (create_lookup_plots k o runs base old dir) s = (Ok figs, s') /\
    fst (run (table_pyoof_out (lk_isot k) runs (ac_order o)) s) = Ok (ac_order o, tab) /\ rows = filter selected_row (lk_sort k tab) /\
    Forall2 (row_coeffs s base (ac_order o) (ac_N_K o)) rows Ks /\
    act_fit_grav (lk_solve k) o Ks (elevations rows) = Ok g /\
    length (lp_gravfit figs) = (ac_N_K o - 3)%nat /\
    forall i l, (2 <= i <= ac_order o)%nat -> admissible (Z.of_nat i) l ->
      exists p, nth_error (lp_gravfit figs) (coeff_pos i l - 3) = Some p /\ gravity_panel rows Ks (nth (coeff_pos i l) g []) (ac_resolution o) i l p.
Proof.
  pose proof Hrun as H. apply create_plots in H. destruct H as [figs HP]. pose proof HP as H. apply plots_inv in H.
  destruct H as (tab & rows & Ks & g & phases & sd & lk & T & s3 & Km & i0 & i1 & (A1 & A2 & A3 & A4 & A5 & A6) & B1 & B2 & B3 & B4 & B5 & B6 & B7 & B8 & B9 & B10 & B11 & B12).
  assert (En : fst tab = ac_order o).
  { unfold table_pyoof_out in A1. rewrite run_bind in A1. destruct (run (table_rows runs (ac_order o)) s) as [[rs|e] s9]; [|discriminate A1]. destruct (forallb _ rs); cbn in A1; inversion A1; reflexivity. }
  exists figs, (snd tab), rows, Ks, g. split; [exact HP|]. split; [rewrite A1, <- En; destruct tab; reflexivity|]. repeat (split; [assumption|]).
  split; [apply mapM_length in B12; rewrite seq_length in B12; exact B12|]. intros i l Hi Ha. apply (panel_shows o rows Ks g Km i l _ A3); try assumption. symmetry. exact (Forall2_len _ _ _ A4).
Qed.

(** Coefficients that follow a gravity law: points and curve of the panel lie on that law. *)
Lemma drawn_law tab h i l : exact_solver (lk_solve k) ->
  fst (run (table_pyoof_out (lk_isot k) runs (ac_order o)) s) = Ok (ac_order o, tab) ->
  let rows := filter selected_row (lk_sort k tab) in
  three_elevations (elevations rows) -> (2 <= i <= ac_order o)%nat -> admissible (Z.of_nat i) l -> length h = 3%nat ->
  (forall r K, In r rows -> row_coeffs s base (ac_order o) (ac_N_K o) r K -> grav_deformation h (Deg (tr_meanel r)) = Ok (nth (coeff_pos i l) K 0)) ->
  exists figs p, run (create_lookup_plots k o runs base old dir) s = (Ok figs, s') /\ nth_error (lp_gravfit figs) (coeff_pos i l - 3) = Some p /\
    length (gp_points p) = length rows /\ (forall e y w, In (e, y, w) (gp_points p) -> exists v, grav_deformation h (Deg e) = Ok v /\ y = 2 * PI * v) /\
    length (gp_x p) = ac_resolution o /\ length (gp_y p) = ac_resolution o /\
    forall m, (m < ac_resolution o)%nat -> exists v, grav_deformation h (Deg (nth m (gp_x p) 0)) = Ok v /\ nth m (gp_y p) 0 = 2 * PI * v.
Proof.
  intros Hs HT rows H3 Hi Ha Hh Hlaw. destruct drawn_gravity as (figs & tab' & rows' & Ks & g & HP & HT' & -> & F & Eg & L & Hp). rewrite HT in HT'. apply Ok_inj in HT'. injection HT' as <-. fold rows in F, Eg, Hp.
  assert (LR : length Ks = length rows) by (symmetry; exact (Forall2_len _ _ _ F)).
  destruct (pos_bounds (ac_order o) i l Hi Ha) as [B _]. rewrite N_K_list in B. set (c := coeff_pos i l) in *.
  assert (RK : rect (length (elevations rows)) (ac_N_K o) Ks).
  { split; [unfold elevations; rewrite map_length; exact LR|]. clear -F. induction F; constructor; [eapply row_coeffs_length; eassumption|assumption]. }
  assert (Gc : nth c g [] = h).
  { assert (Dr : exists r0 : tab_row, True). { destruct rows as [|r0 t]; [destruct H3 as (a & _ & _ & Hin & _); destruct Hin|exists r0; exact I]. } destruct Dr as [r0 _].
    apply (grav_column (lk_solve k) o Ks (elevations rows) g c h (Deg (tr_meanel r0)) Hs H3 RK ltac:(lia) Hh); [|exact Eg].
    intros a Ha'. unfold elevations in *. rewrite map_length in Ha'. change (Deg (tr_meanel r0)) with ((fun r => Deg (tr_meanel r)) r0). rewrite map_nth.
    unfold elem. apply (Hlaw (nth a rows r0) (nth a Ks [])); [apply nth_In; exact Ha'|]. apply (Forall2_at _ _ _ r0 [] a F Ha'). }
  destruct (Hp i l Hi Ha) as (p & Ep & (_ & LP & PT & (lo & hi & _ & EX) & LY & CV)). fold c in Ep, PT, CV. rewrite Gc in CV. exists figs, p. split; [exact HP|]. split; [exact Ep|]. split; [exact LP|].
  split; [|split; [rewrite EX; apply linspace_length|split; [exact LY|exact CV]]].
  intros e y w Hin. apply In_nth_error in Hin. destruct Hin as [a Hin]. assert (La : (a < length rows)%nat) by (rewrite <- LP; apply nth_error_Some; congruence).
  destruct (nth_error rows a) as [r|] eqn:Er; [|apply nth_error_None in Er; lia]. rewrite (PT a r Er) in Hin. injection Hin as <- <- <-. exists (nth c (nth a Ks []) 0). split; [|reflexivity].
  apply Hlaw; [eapply nth_error_In; exact Er|]. pose proof (Forall2_at _ _ _ r [] a F La) as X. rewrite (nth_error_nth _ _ _ Er) in X. exact X.
Qed.
End drawn.
