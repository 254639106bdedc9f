(** Property theorems C74-C78: what the figures of plot_routines.py show. *)
From Coq Require Import String Ascii List Sorted Lia Lra.
From Verif Require Import PyBase Num MZernike MMath MAperture MTel MRad MCore MFs MOut MPlot SZernike SMath SAct SOut SFit SPlot
  PPlot PPlot2 PPlot3 PPlot4 PPlot5 PPlot6 PDemo PDemo2.
From Coquelicot Require Import Complex.
Import ListNotations.
Open Scope R_scope.
Open Scope string_scope.
Open Scope list_scope.

(** C74. The matrix figure: the tick of every fitted parameter carries its name,
    and each pair of parameters is shown once, at the crossing of its ticks. *)
Theorem C74_matrix strict n idx m p cbtitle title : (0 < p)%nat -> length idx = p -> rect p p m -> Forall (fun q => (q < 5 + coeffs n)%nat) idx ->
  exists pn, plot_variance strict (map Fin (map INR idx) :: m) n true cbtitle title = Ok {| fg_size := (6.4, 4.8); fg_title := ""; fg_panels := [pn] |} /\
    pn_title pn = title /\ pn_bar pn = cbtitle /\ length (pn_xticks pn) = p /\ length (pn_yticks pn) = p /\
    forall a b, (a < p)%nat -> (b < p)%nat -> exists xa na yb nb,
      nth_error (pn_xticks pn) a = Some (xa, na) /\ names_parameter (nth a idx 0%nat) na /\
      nth_error (pn_yticks pn) (p - 1 - b) = Some (yb, nb) /\ names_parameter (nth b idx 0%nat) nb /\
      forall v, shows (pn_image pn) xa yb v <-> v = if Nat.leb a b then Some (elem NaN m a b) else None.
Proof. exact (matrix_figure strict n idx m p cbtitle title). Qed.
Print Assumptions C74_matrix.
(** The colour scale spans the values of the matrix. *)
Theorem C74_scale strict n idx m p cbtitle title : (0 < p)%nat -> length idx = p -> rect p p m -> Forall (fun q => (q < 5 + coeffs n)%nat) idx ->
  exists pn vmin vmax, plot_variance strict (map Fin (map INR idx) :: m) n true cbtitle title = Ok {| fg_size := (6.4, 4.8); fg_title := ""; fg_panels := [pn] |} /\
    im_scale (pn_image pn) = Some (vmin, vmax) /\
    forall w, concat m = map Fin w -> exists lo hi, vmin = Fin lo /\ vmax = Fin hi /\ extent_of (fun t => In t w) lo hi.
Proof. exact (matrix_scale strict n idx m p cbtitle title). Qed.
Print Assumptions C74_scale.
(** With diag=False: an error with matplotlib 3.3 or later; before, the lowest row
    carries the name of the last but one parameter and shows the last. *)
Theorem C74_nodiag_refuted n idx m p cbtitle title : (0 < p)%nat -> length idx = p -> rect p p m -> Forall (fun q => (q < 5 + coeffs n)%nat) idx ->
  plot_variance true (map Fin (map INR idx) :: m) n false cbtitle title = Err ValueError.
Proof. exact (plot_variance_nodiag_strict n idx m p cbtitle title). Qed.
Print Assumptions C74_nodiag_refuted.
Theorem C74_nodiag_old_refuted n idx m p cbtitle title : (3 <= p)%nat -> length idx = p -> rect p p m -> Forall (fun q => (q < 5 + coeffs n)%nat) idx ->
  exists pn x0 n0 y0 m0, plot_variance false (map Fin (map INR idx) :: m) n false cbtitle title = Ok {| fg_size := (6.4, 4.8); fg_title := ""; fg_panels := [pn] |} /\
    nth_error (pn_xticks pn) 0 = Some (x0, n0) /\ names_parameter (nth 0 idx 0%nat) n0 /\
    nth_error (pn_yticks pn) 0 = Some (y0, m0) /\ names_parameter (nth (p - 2) idx 0%nat) m0 /\
    forall v, shows (pn_image pn) x0 y0 v <-> v = Some (elem NaN m 0 (p - 1)).
Proof. exact (matrix_nodiag_old n idx m p cbtitle title). Qed.
Print Assumptions C74_nodiag_old_refuted.
Example C74_nonvacuous : (0 < 3)%nat /\ length [0; 3; 6]%nat = 3%nat /\ rect 3 3 [[Fin 1; Fin 2; Fin 3]; [Fin 2; NaN; Fin 4]; [Fin 3; Fin 4; Fin 5]] /\
  Forall (fun q => (q < 5 + coeffs 1)%nat) [0; 3; 6]%nat /\ names_parameter 6 "$K_{1\,-1}$".
Proof.
  split; [lia|]. split; [reflexivity|]. split; [split; [reflexivity|repeat constructor]|]. split; [unfold coeffs; cbn; repeat constructor; lia|].
  do 5 right. exists 1%nat, (-1)%Z. split; [|split; reflexivity]. split; [lia|]. exists 1%Z. lia.
Qed.

(** C75. The beam figure: the power patterns of the first three radial offsets,
    each scaled to its own extent, in the order given, with common limits. *)
Theorem C75_three_patterns fmt I K wavel illum tel N bf g d0 d1 d2 rest plim title : 0 < wavel -> 0 < tel_pr tel -> 0 < bf -> 0 < au_per_rad g ->
  (forall d, In d (d0 :: d1 :: d2 :: rest) -> exists r, radiation_pattern illum tel I K d wavel N bf = Ok r) ->
  exists lims, limits_of I K wavel illum tel N bf d1 plim lims /\ (plim = None -> fst (snd lims) <> snd (snd lims)) /\
    (fst (snd lims) = snd (snd lims) -> plot_beam fmt I K (d0 :: d1 :: d2 :: rest) wavel illum tel N bf plim g title = Err ZeroDivisionError) /\
    (fst (snd lims) <> snd (snd lims) -> exists size p0 p1 p2,
       plot_beam fmt I K (d0 :: d1 :: d2 :: rest) wavel illum tel N bf plim g title = Ok {| fg_size := size; fg_title := title; fg_panels := [p0; p1; p2] |} /\
       shows_beam fmt I K wavel illum tel N bf g p0 true d0 lims /\ shows_beam fmt I K wavel illum tel N bf g p1 false d1 lims /\
       shows_beam fmt I K wavel illum tel N bf g p2 false d2 lims).
Proof. exact (fun H1 H2 H3 H4 => plot_beam_three fmt I K wavel illum tel N bf g H1 H2 H3 H4 d0 d1 d2 rest plim title). Qed.
Print Assumptions C75_three_patterns.
Theorem C75_needs_three fmt I K wavel illum tel N bf g d_z plim title : 0 < wavel -> 0 < tel_pr tel -> 0 < bf ->
  (length d_z < 3)%nat -> (forall d, In d d_z -> exists r, radiation_pattern illum tel I K d wavel N bf = Ok r) ->
  plot_beam fmt I K d_z wavel illum tel N bf plim g title = Err IndexError.
Proof. exact (fun H1 H2 H3 => plot_beam_few fmt I K wavel illum tel N bf g H1 H2 H3 d_z plim title). Qed.
Print Assumptions C75_needs_three.
Theorem C75_only_if fmt I K wavel illum tel N bf g d_z plim title fig : plot_beam fmt I K d_z wavel illum tel N bf plim g title = Ok fig ->
  (3 <= length d_z)%nat /\ forall d, In d d_z -> exists r, radiation_pattern illum tel I K d wavel N bf = Ok r.
Proof. exact (plot_beam_patterns fmt I K wavel illum tel N bf g d_z plim title fig). Qed.
Print Assumptions C75_only_if.
Example C75_nonvacuous : 0 < 1 / 100 /\ 0 < tel_pr demo_tel /\ 0 < au_per_rad degrees_unit /\
  (forall d, In d [-1; 0; 1] -> exists r, radiation_pattern illum_parabolic demo_tel [1; -10; 2; 0; 0] [0; 0; 1] d (1 / 100) 4 5 = Ok r).
Proof.
  split; [lra|]. split; [cbn; lra|]. split; [exact degrees_pos|]. intros d _. exact (demo_pattern d).
Qed.

(** C76. The data figure: each map, scaled (or as it is, for residuals), at its
    own coordinates, in the order given. *)
Theorem C76_maps gd fmt N g u_data v_data beam d_z title res_mode fig : (forall u v b x y, rect (length y) (length x) (gd u v b x y)) ->
  plot_beam_data gd fmt u_data v_data beam d_z N g title res_mode = Ok fig ->
  fg_title fig = title /\ length (fg_panels fig) = 3%nat /\
  forall i pn, nth_error (fg_panels fig) i = Some pn -> exists u v row b d,
    nth_error u_data i = Some u /\ nth_error v_data i = Some v /\ nth_error beam i = Some row /\ nth_error d_z i = Some d /\
    (if res_mode then b = row else normalised row b) /\ shows_data gd fmt N g pn (Nat.eqb i 0) u v b d.
Proof. exact (fun H => data_figure gd fmt N g H u_data v_data beam d_z title res_mode fig). Qed.
Print Assumptions C76_maps.
Theorem C76_returns gd fmt N g u0 u1 u2 us v0 v1 v2 vs b0 b1 b2 d0 d1 d2 ds title res_mode : (2 <= N)%nat -> (forall u v b x y, rect (length y) (length x) (gd u v b x y)) ->
  u0 <> [] -> u1 <> [] -> u2 <> [] -> v0 <> [] -> v1 <> [] -> v2 <> [] -> b0 <> [] -> b1 <> [] -> b2 <> [] ->
  (exists x y, In x v0 /\ In y v0 /\ x <> y) ->
  exists fig, plot_beam_data gd fmt (u0 :: u1 :: u2 :: us) (v0 :: v1 :: v2 :: vs) [b0; b1; b2] (d0 :: d1 :: d2 :: ds) N g title res_mode = Ok fig.
Proof. exact (fun HN H => plot_beam_data_ok gd fmt N g H u0 u1 u2 us v0 v1 v2 vs b0 b1 b2 d0 d1 d2 ds title res_mode HN). Qed.
Print Assumptions C76_returns.
(** Gain and zero level of the receiver do not change the figure. *)
Theorem C76_gain gd fmt N g go u_data v_data beam d_z title : length go = length beam -> Forall (fun p => 0 < fst p) go ->
  plot_beam_data gd fmt u_data v_data (map2 (fun p row => map (affine (fst p) (snd p)) row) go beam) d_z N g title false =
  plot_beam_data gd fmt u_data v_data beam d_z N g title false.
Proof. exact (plot_beam_data_gain gd fmt N g go u_data v_data beam d_z title). Qed.
Print Assumptions C76_gain.
Example C76_nonvacuous : (forall u v b x y, rect (length y) (length x) (flat_griddata u v b x y)) /\
  (exists fig, plot_beam_data flat_griddata (pt_cm plain_printers) [[0; 1]; [0; 1]; [0; 1]] [[0; 1]; [0; 1]; [0; 1]] [[Fin 1; Fin 2]; [Fin 1; NaN]; [Fin 3; Fin 3]] [-1; 0; 1] 4 degrees_unit "t" false = Ok fig) /\
  normalised [Fin 1; NaN] [Fin 0; Fin 0].
Proof.
  split; [exact flat_shape|]. split.
  - apply plot_beam_data_ok; try discriminate; [exact flat_shape|lia|]. exists 0, 1. cbn. split; [auto|]. split; [auto|lra].
  - split; [intros [|? [|? v]] H; discriminate H|]. intros _. reflexivity.
Qed.

(** C77. The phase figure shows the phase of the coefficients. *)
Theorem C77_phase K pr piston tilt n title : (2 * length K = (n + 1) * (n + 2))%nat -> (1 <= n)%nat -> 0 < pr ->
  exists phi pn, phase K pr piston tilt 1000 = Ok (linspace (- pr) pr 1000, linspace (- pr) pr 1000, phi) /\
    plot_phase K pr piston tilt title = Ok {| fg_size := (6, 5.8); fg_title := ""; fg_panels := [pn] |} /\
    portrays pn (linspace (- pr) pr 1000) (linspace (- pr) pr 1000) (fun r c => Fin (nth c (nth r phi []) 0)) /\
    pn_title pn = title /\ pn_bar pn = phase_label piston tilt /\ pn_xlabel pn = "$x$ m" /\ pn_ylabel pn = "$y$ m" /\
    im_x0 (pn_image pn) = - pr /\ im_x1 (pn_image pn) = pr /\ im_y0 (pn_image pn) = - pr /\ im_y1 (pn_image pn) = pr /\
    (exists ct, pn_contour pn = Some ct /\ ct_levels ct = map Fin [-2; -1.5; -1; -0.5; 0; 0.5; 1; 1.5; 2]) /\
    forall j i, (j < 1000)%nat -> (i < 1000)%nat ->
     let x := nth i (linspace (- pr) pr 1000) 0 in
     let y := nth j (linspace (- pr) pr 1000) 0 in
     (pr ^ 2 < x ^ 2 + y ^ 2 -> nth i (nth j phi []) 0 = 0) /\
     (x ^ 2 + y ^ 2 <= pr ^ 2 -> forall rho theta, 0 <= rho -> x = pr * (rho * cos theta) -> y = pr * (rho * sin theta) ->
        nth i (nth j phi []) 0 = 2 * PI * zernike_series n (kept piston tilt (coeff_of K)) rho theta).
Proof. exact (plot_phase_spec K pr piston tilt n title). Qed.
Print Assumptions C77_phase.
Theorem C77_phase_data z pr title n : 0 < pr -> (2 <= n)%nat -> rect n n z ->
  exists pn, plot_phase_data z pr title = Ok {| fg_size := (6, 5.8); fg_title := ""; fg_panels := [pn] |} /\
    portrays pn (linspace (- pr) pr n) (linspace (- pr) pr n) (elem NaN z) /\
    pn_title pn = title /\ pn_bar pn = "$\varphi(x, y)$ amplitude rad" /\ pn_xlabel pn = "$x$ m" /\ pn_ylabel pn = "$y$ m" /\
    im_x0 (pn_image pn) = - pr /\ im_x1 (pn_image pn) = pr /\ im_y0 (pn_image pn) = - pr /\ im_y1 (pn_image pn) = pr /\
    (exists ct, pn_contour pn = Some ct /\ ct_levels ct = map Fin [-2; -1.5; -1; -0.5; 0; 0.5; 1; 1.5; 2]).
Proof. exact (plot_phase_data_square z pr title n). Qed.
Print Assumptions C77_phase_data.
(** A map that is not square is refused. *)
Theorem C77_square_only z pr title rows cols : rect rows cols z -> (0 < rows)%nat -> rows <> cols \/ (rows < 2)%nat -> plot_phase_data z pr title = Err TypeError.
Proof. exact (plot_phase_data_other z pr title rows cols). Qed.
Print Assumptions C77_square_only.
Example C77_nonvacuous : (2 * length [0; 1; 2; 3; 4; 5] = (2 + 1) * (2 + 2))%nat /\ rect 2 2 [[Fin 1; NaN]; [Fin 0; Fin 2]] /\ rect 2 3 [[Fin 1; NaN; Fin 1]; [Fin 0; Fin 2; Fin 1]].
Proof. split; [reflexivity|]. split; (split; [reflexivity|repeat constructor]). Qed.

(** C78. The figures drawn from the directory of a fit: they show what that fit
    observed, found and was left with; only the directory of plots is written. *)
Theorem C78_after_fit gd pt strict orc a s s' c illum tel g plim save : file_tree s -> run (fit_zpoly orc a) s = (Ok tt, s') -> free_number a s -> configured a s c ->
  exists j snrs, (j <= 100)%nat /\ s (numbered (fit_dir a) (fa_name a) j) = None /\ snr_values orc a = Ok snrs /\
  let d := numbered (fit_dir a) (fa_name a) j in
  forall n, (1 <= n <= fa_order_max a)%nat -> exists rows out i r cov cor p,
    fitpar_rows s' d n rows /\ answered orc a c n (map parinit rows) out /\ describes i a snrs /\
    concat r = lo_fun out /\ length r = 3%nat /\ (forall x, In x r -> (3 * length x = length (lo_fun out))%nat) /\
    fitted_positions (length rows) (cf_excluded c) p /\ or_comat orc (lo_fun out) (lo_jac out) (length p) = Ok (cov, cor) /\
    let drawn := run (draw_fit_path gd pt strict d n illum tel g plim save) s' in
    (forall q, ~ below (d ++ ["plots"]) q -> snd drawn q = s' q) /\
    ((length p < 2)%nat -> exists e, fst drawn = Err e) /\
    (matrix2 (fa_beam a) -> matrix2 r -> matrix2 (fa_u a) -> matrix2 (fa_v a) -> (2 <= length p)%nat -> cov <> [] -> cor <> [] ->
     (forall figs, fst drawn = Ok figs <->
        figures_of gd pt strict illum tel g plim n (map parfit rows) i (fa_beam a) (map (map Fin) r) (fa_u a) (fa_v a) (map (map Fin) (map INR p :: cov)) (map (map Fin) (map INR p :: cor)) figs) /\
     (forall figs, fst drawn = Ok figs -> save = true -> forall f, In f (order_figures n ++ if Nat.eqb n 1 then ["obsbeam.pdf"] else []) -> snd drawn (d ++ ["plots"; f]) = Some (File Pdf))).
Proof. exact (fun H1 H2 H3 H4 => draw_after gd pt strict orc a s s' c H1 H2 H3 H4 illum tel g plim save). Qed.
Print Assumptions C78_after_fit.
(** They can be drawn for every order of the run. *)
Theorem C78_returns gd pt strict orc a s s' c illum tel g plim save m :
  file_tree s -> run (fit_zpoly orc a) s = (Ok tt, s') -> free_number a s -> configured a s c -> valid_config c ->
  (forall u v b x y, rect (length y) (length x) (gd u v b x y)) ->
  (2 <= m)%nat -> rect 3 m (fa_beam a) -> rect 3 m (fa_u a) -> rect 3 m (fa_v a) ->
  (exists x y, In x (nth 0 (fa_v a) []) /\ In y (nth 0 (fa_v a) []) /\ x <> y) ->
  (2 <= fa_resolution a)%nat -> 0 < fa_wavel a -> 0 < fa_box_factor a -> 0 < tel_pr (fa_tel a) -> 0 < tel_pr tel -> 0 < au_per_rad g -> (3 <= length (fa_d_z a))%nat ->
  (forall I, length I = 5%nat -> exists Ea, illum I (tel_pr tel) = Ok Ea) ->
  match plim with Some (_, (v0, v1)) => v0 <> v1 | None => True end ->
  (forall f x0 lo hi out, or_lsq orc f x0 lo hi = Ok out -> (6 <= length (lo_fun out))%nat) ->
  (forall r J k cov cor, or_comat orc r J k = Ok (cov, cor) -> rect k k cov /\ rect k k cor) ->
  (exists q1 q2, (q1 < q2 < 8)%nat /\ ~ In (Z.of_nat q1) (cf_excluded c) /\ ~ In (Z.of_nat q2) (cf_excluded c)) ->
  exists j, (j <= 100)%nat /\ s (numbered (fit_dir a) (fa_name a) j) = None /\
    forall n, (1 <= n <= fa_order_max a)%nat ->
      exists figs, fst (run (draw_fit_path gd pt strict (numbered (fit_dir a) (fa_name a) j) n illum tel g plim save) s') = Ok figs /\
        length figs = if Nat.eqb n 1 then 6%nat else 5%nat.
Proof. exact (draw_returns gd pt strict orc a s s' c illum tel g plim save m). Qed.
Print Assumptions C78_returns.
Example C78_nonvacuous : exists s', file_tree demo_fs /\ run (fit_zpoly plot_oracle (plot_args 3)) demo_fs = (Ok tt, s') /\ free_number (plot_args 3) demo_fs /\
  configured (plot_args 3) demo_fs default_config /\
  exists j, (j <= 100)%nat /\ demo_fs (numbered ["w"] "obs" j) = None /\ forall n, (1 <= n <= 3)%nat -> exists figs,
    fst (run (draw_fit_path flat_griddata plain_printers true (numbered ["w"] "obs" j) n illum_parabolic demo_tel degrees_unit None true) s') = Ok figs /\
    length figs = if Nat.eqb n 1 then 6%nat else 5%nat.
Proof. exact plot_demo. Qed.
