(** Property theorems: C96 (a simulated telescope is recovered). *)
From Coq Require Import String List ZArith Lia Lra.
From Verif Require Import PyBase PyLib Num MMath SMath MAperture MRad MCore MFs MOut MAux MSim SOut SFit SBest SAux SSim SRecover PSim PSim3 PDemo PEndDemo PBest2 PFit6 PFit7 PEnd PBest PRecover PRecover2 PRecover3 SCov PCov PCov2 PCov3.
From Coquelicot Require Import Complex.
Import ListNotations.
Open Scope R_scope.
Open Scope string_scope.
Open Scope list_scope.

(** C96. If the answers of the optimizer are best ones from order m on, up to its tolerance
    e, then whatever parameters of order m the configuration allows, the stored parameters
    of order m and of every higher order explain the data as well, up to e. *)
Theorem C96_bound orc a s s' c m e p r0 : file_tree s -> run (fit_zpoly orc a) s = (Ok tt, s') -> free_number a s -> configured a s c -> valid_config c ->
  (1 <= m)%nat -> best_from orc a c m e -> allowed c m p -> explained a p r0 ->
  exists j, (j <= 100)%nat /\ s (numbered (fit_dir a) (fa_name a) j) = None /\
  forall n, (m <= n <= fa_order_max a)%nat -> exists rows r,
    fitpar_rows s' (numbered (fit_dir a) (fa_name a) j) n rows /\
    csv_file s' (numbered (fit_dir a) (fa_name a) j) ("res_n" ^^ dec n ^^ ".csv") ("Residual " ^^ fa_name a) (A2 (map (map Fin) r)) /\
    allowed c n (map parfit rows) /\ explained a (map parfit rows) (concat r) /\ sum_sq (concat r) <= sum_sq r0 + e.
Proof. intros W Hr Hf Hc Hv Hm Hb. exact (best_bounds orc a s s' c m e W Hr Hf Hc Hv Hm Hb p r0). Qed.
Print Assumptions C96_bound.
(** Simulated without noise, read back from the file and fitted with the telescope and the
    grid of the simulation by an optimizer of tolerance w: from the order of the simulated
    coefficients on, the sum of squares of the stored residuals is at most w, and where only
    parameters near the simulated ones explain the maps that well, the stored parameters
    are near the simulated ones (with zeros for the coefficients of higher order). *)
Theorem C96_recovered so sa t f t' cwd p dir stem i ob orc a s s' c m w :
  physical sa -> file_tree t -> run (simulate_data_pyoof so sa) t = (Ok f, t') ->
  t (generated (si_work_dir sa) i) = None -> t' (generated (si_work_dir sa) i) <> None ->
  names_fits p dir stem -> resolve cwd p = generated (si_work_dir sa) i -> length (si_I sa) = 5%nat -> (forall x, so_f32 so x = Fin x) -> si_noise sa = 0 ->
  fst (run (extract_data_pyoof cwd p) t') = Ok ob -> observation_of ob a -> same_model sa a ->
  file_tree s -> run (fit_zpoly orc a) s = (Ok tt, s') -> free_number a s -> configured a s c -> valid_config c ->
  (1 <= m)%nat -> allowed c m (si_I sa ++ si_K sa) -> best_from orc a c m w ->
  exists j, (j <= 100)%nat /\ s (numbered (fit_dir a) (fa_name a) j) = None /\
  forall n, (m <= n <= fa_order_max a)%nat -> exists rows r,
    fitpar_rows s' (numbered (fit_dir a) (fa_name a) j) n rows /\
    csv_file s' (numbered (fit_dir a) (fa_name a) j) ("res_n" ^^ dec n ^^ ".csv") ("Residual " ^^ fa_name a) (A2 (map (map Fin) r)) /\
    allowed c n (map parfit rows) /\ explained a (map parfit rows) (concat r) /\ sum_sq (concat r) <= w /\
    (forall d, determined a c n (si_I sa ++ si_K sa ++ repeat 0 (coeffs n - coeffs m)) w d -> near d (map parfit rows) (si_I sa ++ si_K sa ++ repeat 0 (coeffs n - coeffs m))).
Proof.
  intros H1 H2 H3 H4 H5 H6 H7 H8 H9 Hq H10 H11 H12 H13 H14 H15 H16 H17 H18 H19 H20.
  exact (recovered so sa t f t' cwd p dir stem i ob H1 H2 H3 H4 H5 H6 H7 H8 H9 H10 orc a s s' c m w H11 H12 H13 H14 H15 H16 H17 H18 H19 H20 Hq).
Qed.
Print Assumptions C96_recovered.
(** With noise of size at most e, the sum of squares of the stored residuals is at most
    the number of data points times (4 e / D) ^ 2, where D is the range of the noise-free
    maps (the smallest of the three), plus the tolerance w. *)
Theorem C96_noise so sa t f t' cwd p dir stem i ob orc a s s' c m w e :
  physical sa -> file_tree t -> run (simulate_data_pyoof so sa) t = (Ok f, t') ->
  t (generated (si_work_dir sa) i) = None -> t' (generated (si_work_dir sa) i) <> None ->
  names_fits p dir stem -> resolve cwd p = generated (si_work_dir sa) i -> length (si_I sa) = 5%nat -> (forall x, so_f32 so x = Fin x) ->
  (forall i r c, Rabs (so_normal so (si_noise sa) i r c) <= e) ->
  fst (run (extract_data_pyoof cwd p) t') = Ok ob -> observation_of ob a -> same_model sa a ->
  file_tree s -> run (fit_zpoly orc a) s = (Ok tt, s') -> free_number a s -> configured a s c -> valid_config c ->
  (1 <= m)%nat -> allowed c m (si_I sa ++ si_K sa) -> best_from orc a c m w ->
  exists z0 z1 z2 rest u F0 F1 F2 i0 k, si_d_z sa = z0 :: z1 :: z2 :: rest /\ beams sa z0 z1 z2 u F0 F1 F2 /\ window u (half_width sa) i0 k /\
    forall D, 0 < D -> (forall F, In F [F0; F1; F2] -> exists r c r' c', (r < k /\ c < k /\ r' < k /\ c' < k)%nat /\
      D <= Cmod (at2 F (i0 + r) (i0 + c)) ^ 2 - Cmod (at2 F (i0 + r') (i0 + c')) ^ 2) ->
  exists j, (j <= 100)%nat /\ s (numbered (fit_dir a) (fa_name a) j) = None /\
  forall n, (m <= n <= fa_order_max a)%nat -> exists rows r,
    fitpar_rows s' (numbered (fit_dir a) (fa_name a) j) n rows /\
    csv_file s' (numbered (fit_dir a) (fa_name a) j) ("res_n" ^^ dec n ^^ ".csv") ("Residual " ^^ fa_name a) (A2 (map (map Fin) r)) /\
    allowed c n (map parfit rows) /\ explained a (map parfit rows) (concat r) /\ sum_sq (concat r) <= INR (3 * (k * k)) * (4 * e / D) ^ 2 + w.
Proof.
  intros H1 H2 H3 H4 H5 H6 H7 H8 H9 He H10 H11 H12 H13 H14 H15 H16 H17 H18 H19 H20.
  exact (recovered_noisy so sa t f t' cwd p dir stem i ob H1 H2 H3 H4 H5 H6 H7 H8 H9 H10 orc a s s' c m w H11 H12 H13 H14 H15 H16 H17 H18 H19 H20 e He).
Qed.
Print Assumptions C96_noise.
(** The amplitude of the illumination is not among the parameters that can be recovered:
    where it is fitted, every amplitude within the bounds (except 0) explains the maps
    equally well, so "near" has to be as wide as its bounds. *)
Theorem C96_amplitude_refuted a c n p r e d : valid_config c -> amplitude_fitted c -> (1 <= n)%nat -> fa_illum a = illum_parabolic -> 0 < tel_pr (fa_tel a) ->
  allowed c n p -> nth 0 p 0 <> 0 -> explained a p r -> sum_sq r <= e -> determined a c n p e d ->
  forall z, z <> 0 -> nth 0 (cf_bound_min c) 0 <= z <= nth 0 (cf_bound_max c) 0 -> Rabs (z - nth 0 p 0) <= d.
Proof. exact (amplitude_free a c n p r e d). Qed.
Print Assumptions C96_amplitude_refuted.
(** A telescope with a tilt of 1/2, simulated on two samples per axis, read back, and
    fitted with the tilt as the only free parameter, with the covariances of the package
    and an optimizer that stops close to the tilt: for every d there is a tolerance w > 0
    for which all hypotheses hold, and the tilts that explain the maps within w are all
    within d of 1/2. *)
Example C96_nonvacuous d : 0 < d < 1 / 10 -> exists t w f t' ob s', let sa := tilt_sim (1 / 2) in let a := tilt_args (1 / 2) in let orc := tilt_oracle t in
  physical sa /\ file_tree sim_fs /\ run (simulate_data_pyoof quiet_outside sa) sim_fs = (Ok f, t') /\
  sim_fs (generated (si_work_dir sa) 1) = None /\ t' (generated (si_work_dir sa) 1) <> None /\
  names_fits "data_generated/test001.fits" "data_generated/" "test001" /\ resolve ["w"] "data_generated/test001.fits" = generated (si_work_dir sa) 1 /\
  length (si_I sa) = 5%nat /\ (forall x, so_f32 quiet_outside x = Fin x) /\ si_noise sa = 0 /\
  fst (run (extract_data_pyoof ["w"] "data_generated/test001.fits") t') = Ok ob /\ observation_of ob a /\ same_model sa a /\
  file_tree tilt_fs /\ run (fit_zpoly orc a) tilt_fs = (Ok tt, s') /\ free_number a tilt_fs /\ configured a tilt_fs tilt_config /\ valid_config tilt_config /\ own_covariances orc /\
  allowed tilt_config 1 (si_I sa ++ si_K sa) /\ 0 < w /\ best_from orc a tilt_config 1 w /\ fa_order_max a = 1%nat /\ determined a tilt_config 1 (si_I sa ++ si_K sa ++ repeat 0 (coeffs 1 - coeffs 1)) w d.
Proof.
  intros Hd. destruct (tilt_close d Hd) as (t & Ht & Q1 & Q2). exists t, (3 * (tilt_q (1 / 2) - tilt_q t) ^ 2).
  destruct (tilt_runs (1 / 2)) as (f & t' & ob & H3 & H4 & H5 & H10 & E1 & E2 & E3 & E4 & E5). destruct (tilt_fit t Ht) as [s' Hs]. exists f, t', ob, s'. cbv zeta.
  split; [apply tilt_physical|]. split; [exact sim_tree|]. split; [exact H3|]. split; [exact H4|]. split; [exact H5|].
  split. { split; [reflexivity|]. split; [right; exists "data_generated"; reflexivity|]. split; [cbn; intuition discriminate|]. exists (Ascii.Ascii false false true false true true true false). split; [left; reflexivity|discriminate]. }
  split; [reflexivity|]. split; [reflexivity|]. split; [reflexivity|]. split; [reflexivity|]. split; [exact H10|].
  split; [repeat split; cbn [fa_beam fa_u fa_v fa_d_z fa_wavel tilt_args]; congruence|]. split; [repeat split|].
  split; [exact tilt_tree|]. split; [exact Hs|]. split; [apply tilt_free|]. split; [reflexivity|]. split; [exact tilt_valid|]. split; [intros rs J k; reflexivity|].
  split; [apply tilt_allowed; exists (1 / 2); split; [lra|reflexivity]|].
  split; [pose proof (tilt_q_increasing (1 / 2) t ltac:(lra) ltac:(lra) ltac:(lra)); nra|].
  split; [apply tilt_best; lra|]. split; [reflexivity|]. exact (tilt_determined d t Hd Ht Q1 Q2).
Qed.
(** The default configuration fits the amplitude, between 0 and 10. *)
Example C96_nonvacuous_amplitude : valid_config default_config /\ amplitude_fitted default_config /\ nth 0 (cf_bound_min default_config) 0 = 0 /\ nth 0 (cf_bound_max default_config) 0 = 10 /\
  let a := best_args 1 in fa_illum a = illum_parabolic /\ 0 < tel_pr (fa_tel a) /\
  exists p r, allowed default_config 1 p /\ nth 0 p 0 = 1 /\ explained a p r /\ sum_sq r <= 0 /\ determined a default_config 1 p 0 10.
Proof.
  split; [exact default_valid|]. split; [exact amp_default|]. split; [reflexivity|]. split; [reflexivity|]. intros a. split; [reflexivity|]. split; [cbn; lra|].
  exists [1; - (29 / 2); 7 / 5; 0; 0; 0; 0; 0], (repeat 0 9). split. { apply allowed_iff; [exact default_valid|lia|]. exists [1; 0; 0]. split; [exact first_feasible|reflexivity]. }
  split; [reflexivity|]. split. { unfold explained. pose proof (first_exact 1) as X. unfold misfit, residual in X. cbn [params_complete] in X. exact X. }
  split; [cbn; lra|]. apply amp_wide.
Qed.
