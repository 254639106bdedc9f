(** Property theorems: C104 (a best fit exists, and the residual depends continuously on the
    coefficients). *)
From Coq Require Import String List ZArith Lia Lra.
From Verif Require Import PyBase PyLib Num MMath SMath MAperture MTel MRad MCore SCore MFs MOut MAux MSim SOut SFit SBest SGain SRecover SPlot SLip PIllum PPlot3 PBest2 PDemo PRecover3 PLip PLip2 PLip3.
Import ListNotations.
Open Scope R_scope.
Open Scope list_scope.

(** C104. Changing the Zernike coefficients from K to K', and the path of the defocus by at
    most Dz anywhere in the dish, changes no entry of the residual by more than a multiple
    of the change; D is the smallest contrast of the modelled maps. *)
Theorem C104_lipschitz a I K K' d_z' Dz D n Ea r r' : comparable a -> length I = 5%nat -> (2 * length K = (n + 1) * (n + 2))%nat -> length K' = length K ->
  fa_illum a I (tel_pr (fa_tel a)) = Ok Ea -> length d_z' = 3%nat ->
  (forall i x y, (i < 3)%nat -> x ^ 2 + y ^ 2 <= tel_pr (fa_tel a) ^ 2 -> Rabs (opd_func (fa_tel a) x y (nth i d_z' 0) - opd_func (fa_tel a) x y (nth i (fa_d_z a) 0)) <= Dz) ->
  0 < D -> contrast a (I ++ K) D -> explained a (I ++ K) r ->
  residual_true (fa_illum a) (fa_tel a) (I ++ K') (fa_beam a) (fa_u a) (fa_v a) d_z' (fa_wavel a) (fa_resolution a) (fa_box_factor a) = Ok r' ->
  Forall2 (fun x x' => Rabs (x' - x) <=
    4 * (4 * PI * (py_sum (map Rabs (map2 Rminus K' K)) + Dz / fa_wavel a) *
         over_samples (tel_pr (fa_tel a) * fa_box_factor a) (fa_resolution a) (fun x y => Rabs (block_dist (fa_tel a) x y * Ea x y)) ^ 2) / D) r r'.
Proof. exact (residual_lip a I K K' d_z' Dz D n Ea r r'). Qed.
Print Assumptions C104_lipschitz.

(** With the illumination fixed by the configuration, and modelled maps that are not constant,
    some allowed parameters of order n fit best ... *)
Theorem C104_best_exists a c n p0 Ea : comparable a -> valid_config c -> (forall i, (i < 5)%nat -> In (Z.of_nat i) (cf_excluded c)) ->
  fa_illum a (firstn 5 (cf_fixed c)) (tel_pr (fa_tel a)) = Ok Ea -> allowed c n p0 -> (forall p, allowed c n p -> varies a p) ->
  exists q r, allowed c n q /\ explained a q r /\ forall q' r', allowed c n q' -> explained a q' r' -> sum_sq r <= sum_sq r'.
Proof. exact (fun HC Hv HX => best_exists a c n p0 Ea HC HX (proj1 (proj2 Hv))). Qed.
Print Assumptions C104_best_exists.

(** ... and likewise with the amplitude free, as in the default configuration: the parabolic
    taper has a best fit even when amplitude 0, where the model is constant, is allowed. *)
Theorem C104_best_exists_amplitude a c n p0 : comparable a -> fa_illum a = illum_parabolic -> (forall i, (1 <= i <= 4)%nat -> In (Z.of_nat i) (cf_excluded c)) -> 0 < nth 2 (cf_fixed c) 0 ->
  allowed c n p0 -> (forall p, allowed c n p -> nth 0 p 0 <> 0 -> varies a p) ->
  exists q r, allowed c n q /\ explained a q r /\ forall q' r', allowed c n q' -> explained a q' r' -> sum_sq r <= sum_sq r'.
Proof. exact (best_exists_amp a c n p0). Qed.
Print Assumptions C104_best_exists_amplitude.

(** A best fit is what an optimizer without tolerance may answer: the hypotheses of C94 and C96
    on the optimizer can be met with tolerance 0. *)
Theorem C104_optimal a c n q r : valid_config c -> (1 <= n)%nat -> allowed c n q -> explained a q r -> (forall q' r', allowed c n q' -> explained a q' r' -> sum_sq r <= sum_sq r') ->
  exists out, optimal a c n 0 out /\ lo_fun out = r.
Proof. exact (optimal_of_best a c n q r). Qed.
Print Assumptions C104_optimal.

(** At amplitude 0 the residual is the normalised data, whatever the coefficients. *)
Theorem C104_zero_amplitude a c_dB q x0 y0 K n : comparable a -> fa_illum a = illum_parabolic -> 0 < q -> (2 * length K = (n + 1) * (n + 2))%nat ->
  exists b0 b1 b2 d0 d1 d2, fa_beam a = [b0; b1; b2] /\ normalised b0 (map Fin d0) /\ normalised b1 (map Fin d1) /\ normalised b2 (map Fin d2) /\
    explained a (0 :: c_dB :: q :: x0 :: y0 :: K) (d0 ++ d1 ++ d2).
Proof.
  intros HC Hi Hq HK. destruct (zero_residual a c_dB q x0 y0 K n HC Hi Hq HK) as (b0 & b1 & b2 & d0 & d1 & d2 & Eb & D0 & D1 & D2 & E).
  exists b0, b1, b2, d0, d1, d2. exact (conj Eb (conj (norm_all_normalised _ _ D0) (conj (norm_all_normalised _ _ D1) (conj (norm_all_normalised _ _ D2) E)))).
Qed.
Print Assumptions C104_zero_amplitude.

(** The sum of squares is not continuous in the amplitude: coefficients that fit exactly do so
    for every amplitude but 0, where the sum of squares is at least 1. *)
Theorem C104_continuous_amplitude_refuted a c_dB q x0 y0 K n v s t r : comparable a -> fa_illum a = illum_parabolic -> 0 < q -> (2 * length K = (n + 1) * (n + 2))%nat ->
  In (map Fin v) (fa_beam a) -> In s v -> In t v -> s <> t -> explained a (1 :: c_dB :: q :: x0 :: y0 :: K) r ->
  (forall i_amp, i_amp <> 0 -> explained a (i_amp :: c_dB :: q :: x0 :: y0 :: K) r) /\ exists r0, explained a (0 :: c_dB :: q :: x0 :: y0 :: K) r0 /\ 1 <= sum_sq r0.
Proof. exact (jump a c_dB q x0 y0 K n v s t r). Qed.
Print Assumptions C104_continuous_amplitude_refuted.

(** A tilted telescope: the tilt is fitted between 0 and 1, the amplitude fixed or free, and
    the true tilt of 1/2 fits exactly. *)
Example C104_nonvacuous : comparable (tilt_args (1 / 2)) /\ valid_config tilt_config /\ (forall i, (i < 5)%nat -> In (Z.of_nat i) (cf_excluded tilt_config)) /\
  (exists Ea, illum_parabolic (firstn 5 (cf_fixed tilt_config)) 50 = Ok Ea) /\ (exists p, allowed tilt_config 1 p) /\ (forall p, allowed tilt_config 1 p -> varies (tilt_args (1 / 2)) p) /\
  (forall i, (1 <= i <= 4)%nat -> In (Z.of_nat i) (cf_excluded tilt_free)) /\ 0 < nth 2 (cf_fixed tilt_free) 0 /\ allowed tilt_free 1 [0; - (29 / 2); 7 / 5; 0; 0; 0; 0; 1] /\
  (forall p, allowed tilt_free 1 p -> nth 0 p 0 <> 0 -> varies (tilt_args (1 / 2)) p) /\
  (exists D, 0 < D /\ contrast (tilt_args (1 / 2)) [1; - (29 / 2); 7 / 5; 0; 0; 0; 0; 1 / 2] D) /\
  explained (tilt_args (1 / 2)) [1; - (29 / 2); 7 / 5; 0; 0; 0; 0; 1 / 2] (repeat 0 12) /\
  exists v s t, In (map Fin v) (fa_beam (tilt_args (1 / 2))) /\ In s v /\ In t v /\ s <> t.
Proof.
  split; [apply tilt_comparable|]. split; [exact tilt_valid|]. split; [intros i Hi; cbn; lia|]. split; [eexists; reflexivity|].
  split; [eexists; apply tilt_allowed; exists 0; split; [lra|reflexivity]|].
  split; [intros p Hp; apply tilt_allowed in Hp as (t & Ht & ->); apply tilt_varies; exact Ht|].
  split; [intros i Hi; cbn; lia|]. split; [cbn; lra|]. split; [apply tilt_free_allowed; exists 0, 1; split; [lra|split; [lra|reflexivity]]|].
  split. { intros p Hp Hn. apply tilt_free_allowed in Hp as (s & t & Hs & Ht & ->). apply varies_amp; [reflexivity|cbn; lra|lra|exact Hn|]. apply tilt_varies. exact Ht. }
  split; [apply contrast_of_varies, tilt_varies; lra|].
  split. { pose proof (tilt_explained (1 / 2) (1 / 2) ltac:(lra) ltac:(lra)) as E. cbv zeta in E. rewrite Rminus_diag_eq in E by reflexivity. exact E. }
  destruct (tilt_varies (1 / 2) (1 / 2) ltac:(lra) 0%nat ltac:(lia)) as (m & s & t & E & Is & It & N). exists (tilt_map (1 / 2)), s, t.
  pose proof (tilt_row (1 / 2) (1 / 2) 0 ltac:(lia)) as R. unfold modelled in E. cbn [fa_illum fa_tel fa_wavel fa_resolution fa_box_factor tilt_args] in E, R. rewrite R in E. apply Ok_inj in E. subst m.
  split; [left; reflexivity|]. auto.
Qed.
