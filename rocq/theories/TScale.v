(** C103: only ratios of lengths matter. *)
From Coq Require Import Reals List ZArith Lia Lra String.
From Verif Require Import PyBase Num MMath MTel MAperture MRad MCore MFs MOut SOut SFit SCore SBest SRecover SScale PDemo PRecover PRecover3 PScale.
Import ListNotations.
Open Scope R_scope.
Open Scope list_scope.
Local Notation "a ^^ b" := (String.append a b) (at level 60, right associativity).

(** Dish, blocking, focal lengths, offset of the illumination, radial offset and wavelength
    times s: the same axes and the same field, sample by sample, or the same exception. *)
Theorem C103_pattern s illum tel tel' i_amp c_dB q x0 y0 K d wavel N bf : 0 < s -> 0 < tel_pr tel -> 0 < wavel -> 0 < bf -> magnified s tel tel' -> magnifies s illum (tel_pr tel) ->
  radiation_pattern illum tel' [i_amp; c_dB; q; s * x0; s * y0] K (s * d) (s * wavel) N bf = radiation_pattern illum tel [i_amp; c_dB; q; x0; y0] K d wavel N bf.
Proof. intros Hs Hp Hw Hb HT HI. exact (radiation_scaled s illum tel tel' Hs Hp HT HI i_amp c_dB q x0 y0 K d wavel N bf Hw Hb). Qed.
Print Assumptions C103_pattern.
(** The residual of the fit. *)
Theorem C103_residual s illum tel tel' p beam u v d wavel N bf : 0 < s -> 0 < tel_pr tel -> 0 < wavel -> 0 < bf -> magnified s tel tel' -> magnifies s illum (tel_pr tel) -> (5 <= length p)%nat ->
  residual_true illum tel' (in_units s p) beam u v (map (Rmult s) d) (s * wavel) N bf = residual_true illum tel p beam u v d wavel N bf.
Proof. intros Hs Hp Hw Hb HT HI L. exact (residual_scaled s illum tel tel' Hs Hp HT HI p beam u v d wavel N bf Hw Hb L). Qed.
Print Assumptions C103_residual.
(** The telescopes of telgeometry.py built from lengths, and the illuminations. *)
Theorem C103_telescopes s pr sr a L Fp Ff : 0 < s ->
  magnified s {| block_dist := block_manual pr sr a L; opd_func := opd_manual Fp Ff; tel_pr := pr |}
    {| block_dist := block_manual (s * pr) (s * sr) (s * a) (s * L); opd_func := opd_manual (s * Fp) (s * Ff); tel_pr := s * pr |} /\
  magnifies s illum_parabolic pr /\ magnifies s illum_gauss pr.
Proof. exact (fun H => conj (magnified_manual s pr sr a L Fp Ff H) (conj (magnifies_parabolic s pr H) (magnifies_gauss s pr H))). Qed.
Print Assumptions C103_telescopes.
(** A fit in the other unit: what it stores, converted back, is allowed and explains the
    maps as well as anything. *)
Theorem C103_fit u orc a a' s s' c c' m e p r0 : file_tree s -> run (fit_zpoly orc a') s = (Ok tt, s') -> free_number a' s -> configured a' s c' -> valid_config c ->
  (1 <= m)%nat -> best_from orc a' c' m e -> scale_ok u a -> remeasured u a a' -> config_in_units u c c' -> allowed c m p -> explained a p r0 ->
  exists j, (j <= 100)%nat /\ s (numbered (fit_dir a') (fa_name a') j) = None /\
  forall n, (m <= n <= fa_order_max a')%nat -> exists rows r,
    fitpar_rows s' (numbered (fit_dir a') (fa_name a') j) n rows /\
    csv_file s' (numbered (fit_dir a') (fa_name a') j) ("res_n" ^^ dec n ^^ ".csv") ("Residual " ^^ fa_name a') (A2 (map (map Fin) r)) /\
    allowed c n (in_units (/ u) (map parfit rows)) /\ explained a (in_units (/ u) (map parfit rows)) (concat r) /\ sum_sq (concat r) <= sum_sq r0 + e /\
    (forall d, determined a c n (p ++ repeat 0 (coeffs n - coeffs m)) (sum_sq r0 + e) d -> near d (in_units (/ u) (map parfit rows)) (p ++ repeat 0 (coeffs n - coeffs m))).
Proof. intros W R F C V M B U A K. exact (fit_units u orc a a' s s' c c' m e W R F C V M B U A K p r0). Qed.
Print Assumptions C103_fit.

(** A telescope of 100 m measured in kilometres and in metres. *)
Example C103_nonvacuous : magnified 1000 km_tel demo_tel /\ magnifies 1000 illum_parabolic (tel_pr km_tel) /\ 0 < tel_pr km_tel /\ tel_pr demo_tel = 50.
Proof. split; [exact km_tel_magnified|]. split; [apply magnifies_parabolic; lra|]. cbn. lra. Qed.
Example C103_nonvacuous_fit d : 0 < d < 1 / 10 -> exists t e r0 s', let a := km_args in let a' := tilt_args (1 / 2) in let orc := tilt_oracle t in
  let p := [1; - (29 / 2); 7 / 5; 0; 0; 0; 0; 1 / 2] in
  file_tree tilt_fs /\ run (fit_zpoly orc a') tilt_fs = (Ok tt, s') /\ free_number a' tilt_fs /\ configured a' tilt_fs tilt_config /\ valid_config km_config /\
  best_from orc a' tilt_config 1 e /\ scale_ok 1000 a /\ remeasured 1000 a a' /\ config_in_units 1000 km_config tilt_config /\ allowed km_config 1 p /\ explained a p r0 /\
  0 < e /\ sum_sq r0 = 0 /\ determined a km_config 1 (p ++ repeat 0 (coeffs 1 - coeffs 1)) (sum_sq r0 + e) d.
Proof.
  intros Hd. destruct (tilt_close d Hd) as (t & Ht & Q1 & Q2). destruct (tilt_fit t Ht) as [s' Hs].
  exists t, (3 * (tilt_q (1 / 2) - tilt_q t) ^ 2), (concat (repeat [0; 0; 0; 0] 3)), s'. cbv zeta. set (p := [1; - (29 / 2); 7 / 5; 0; 0; 0; 0; 1 / 2]).
  assert (PP : in_units 1000 p = p) by (unfold p; cbn [in_units]; rewrite Rmult_0_r; reflexivity).
  assert (S0 : sum_sq (concat (repeat [0; 0; 0; 0] 3)) = 0) by (cbn; ring).
  split; [exact tilt_tree|]. split; [exact Hs|]. split; [apply tilt_free|]. split; [reflexivity|]. split; [exact km_valid|]. split; [apply tilt_best; lra|].
  split; [exact km_ok|]. split; [exact km_remeasured|]. split; [exact km_config_units|].
  split. { apply (allowed_units 1000 km_config tilt_config 1 p ltac:(lra) km_valid km_config_units). rewrite PP. apply tilt_allowed. exists (1 / 2). split; [lra|reflexivity]. }
  split. { apply (explained_units 1000 km_args (tilt_args (1 / 2)) p _ km_ok km_remeasured); [cbn; lia|]. rewrite PP. pose proof (tilt_explained (1 / 2) (1 / 2) ltac:(lra) ltac:(lra)) as X. cbv zeta in X. rewrite Rminus_diag_eq in X by reflexivity. exact X. }
  split; [pose proof (tilt_q_increasing (1 / 2) t ltac:(lra) ltac:(lra) ltac:(lra)); nra|]. split; [exact S0|]. rewrite S0, Rplus_0_l. exact (km_determined d t Hd Ht Q1 Q2).
Qed.
