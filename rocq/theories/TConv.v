(** Property theorems C101: sign and axis conventions of the observation. *)
From Coq Require Import List ZArith Lia Lra String.
From Verif Require Import PyBase Num MMath MAperture MTel MCore MFs MOut SMath SZernike SRad SCore SOut SFit SBest SRecover SMirror SConv PBest PRecover3 PConv PConv2.
Import ListNotations.
Open Scope R_scope.
Open Scope list_scope.

(** C101. [listed] puts the coefficients where the package looks for them, and converting twice gives the vector back. *)
Theorem C101_coefficients g n c p : length (listed n c) = coeffs n /\
  (forall i l, (i <= n)%nat -> admissible (Z.of_nat i) l -> coeff_of (listed n c) i l = c i l) /\
  (length p = (5 + coeffs n)%nat -> length (params_under g n p) = (5 + coeffs n)%nat /\ params_under g n (params_under g n p) = p).
Proof. exact (conj (listed_coeffs n c) (conj (listed_at n c) (fun L => conj (params_len g n p L) (params_back g n p L)))). Qed.
Print Assumptions C101_coefficients.
(** Data recorded under the other convention and converted parameters give the same result: the same residuals, or the same exception. *)
Theorem C101_residual g illum tel n p beam u v d wavel N bf : 0 < wavel -> 0 < tel_pr tel -> 0 < bf -> symmetric g tel -> moves g illum (tel_pr tel) ->
  length p = (5 + coeffs n)%nat -> (forall x, In x (reversed g u v) -> Rabs x <= INR (N - 1 - N / 2) * grid_step (tel_pr tel) wavel N bf) ->
  residual_true illum tel (params_under g n p) beam (u_under g u v) (v_under g u v) (dz_under g d) wavel N bf = residual_true illum tel p beam u v d wavel N bf.
Proof. exact (residual_under g illum tel n p beam u v d wavel N bf). Qed.
Print Assumptions C101_residual.
(** The telescopes and illuminations of the package allow all four changes. *)
Theorem C101_telescopes g pr sr a L Fp Ff alpha :
  symmetric g {| block_dist := block_manual pr sr a L; opd_func := opd_manual Fp Ff; tel_pr := pr |} /\
  symmetric g {| block_dist := block_effelsberg alpha; opd_func := opd_effelsberg; tel_pr := pr |} /\
  moves g illum_parabolic pr /\ moves g illum_gauss pr.
Proof. exact (conj (symmetric_manual g pr sr a L Fp Ff) (conj (symmetric_effelsberg g alpha pr) (conj (moves_parabolic g pr) (moves_gauss g pr)))). Qed.
Print Assumptions C101_telescopes.
(** So do the configurations with even bounds, and the default one is among them. *)
Theorem C101_configurations g c : (valid_config c -> even_config c -> closed_under g c) /\ even_config default_config.
Proof. exact (conj (even_closed g c) default_even). Qed.
Print Assumptions C101_configurations.
(** A fit of the data recorded under the other convention: where p explains the observation, the stored residuals are as
    good as those of p (up to the tolerance e of the optimizer), the stored parameters are the converted ones of a vector
    that explains the observation with these residuals, and if only parameters near p explain it that well, they are near the converted p. *)
Theorem C101_fit g orc a a' s s' c m e p r0 : file_tree s -> run (fit_zpoly orc a') s = (Ok tt, s') -> free_number a' s -> configured a' s c -> valid_config c ->
  (1 <= m)%nat -> best_from orc a' c m e -> set_up g a -> recorded g a a' -> closed_under g c -> allowed c m p -> explained a p r0 ->
  exists j, (j <= 100)%nat /\ s (numbered (fit_dir a') (fa_name a') j) = None /\
  forall n, (m <= n <= fa_order_max a')%nat -> exists rows r,
    fitpar_rows s' (numbered (fit_dir a') (fa_name a') j) n rows /\
    csv_file s' (numbered (fit_dir a') (fa_name a') j) ("res_n" ^^ dec n ^^ ".csv") ("Residual " ^^ fa_name a') (A2 (map (map Fin) r)) /\
    allowed c n (map parfit rows) /\ explained a (params_under g n (map parfit rows)) (concat r) /\ sum_sq (concat r) <= sum_sq r0 + e /\
    (forall d, determined a c n (p ++ repeat 0 (coeffs n - coeffs m)) (sum_sq r0 + e) d -> near d (map parfit rows) (params_under g n (p ++ repeat 0 (coeffs n - coeffs m)))).
Proof. intros W R F C V M B U A K. exact (fit_under g orc a a' s s' c m e W R F C V M B U A K p r0). Qed.
Print Assumptions C101_fit.
(** Fits under both conventions end with equally good residuals. *)
Theorem C101_equally_good g orc orc' a a' s s' t t' c e : file_tree s -> file_tree t -> run (fit_zpoly orc a) s = (Ok tt, s') -> run (fit_zpoly orc' a') t = (Ok tt, t') ->
  free_number a s -> free_number a' t -> configured a s c -> configured a' t c -> valid_config c -> best_from orc a c 1 e -> best_from orc' a' c 1 e ->
  set_up g a -> recorded g a a' -> closed_under g c ->
  exists j j', s (numbered (fit_dir a) (fa_name a) j) = None /\ t (numbered (fit_dir a') (fa_name a') j') = None /\
  forall n, (1 <= n <= fa_order_max a)%nat -> (n <= fa_order_max a')%nat -> exists r r',
    csv_file s' (numbered (fit_dir a) (fa_name a) j) ("res_n" ^^ dec n ^^ ".csv") ("Residual " ^^ fa_name a) (A2 (map (map Fin) r)) /\
    csv_file t' (numbered (fit_dir a') (fa_name a') j') ("res_n" ^^ dec n ^^ ".csv") ("Residual " ^^ fa_name a') (A2 (map (map Fin) r')) /\
    Rabs (sum_sq (concat r') - sum_sq (concat r)) <= e.
Proof. exact (equally_good g orc orc' a a' s s' t t' c e). Qed.
Print Assumptions C101_equally_good.

Definition tel101 : telgeo := {| block_dist := block_manual 50 3 1 20; opd_func := opd_manual 30 300; tel_pr := 50 |}.
(** u reversed: a shifted illumination, tilt and astigmatism. *)
Example C101_nonvacuous : let p := [1; -14; 2; 1 / 100; 1 / 50; 1; 2; 3; 4; 5; 6] in
  params_under Reverse_u 2 p = [1; -14; 2; - (1 / 100); 1 / 50; 1; 2; -3; -4; 5; 6] /\ length p = (5 + coeffs 2)%nat /\ 0 < tel_pr tel101 /\
  symmetric Reverse_u tel101 /\ moves Reverse_u illum_parabolic (tel_pr tel101) /\
  (forall x, In x (reversed Reverse_u [[0; 1 / 100000]; [0; - (1 / 100000)]; [0; 0]] [[0; 0]; [0; 0]; [0; 0]]) -> Rabs x <= INR (256 - 1 - 256 / 2) * grid_step (tel_pr tel101) (1 / 100) 256 5).
Proof.
  cbv zeta. split; [cbv -[IZR Rmult Ropp Rdiv Rinv]; repeat (f_equal; try lra)|]. split; [reflexivity|]. split; [cbn; lra|]. split; [apply symmetric_manual|]. split; [apply moves_parabolic|].
  assert (H : 1 / 100000 <= INR (256 - 1 - 256 / 2) * grid_step (tel_pr tel101) (1 / 100) 256 5).
  { unfold grid_step. cbn [tel_pr tel101]. replace (INR (256 - 1 - 256 / 2)) with 127 by (rewrite INR_IZR_INZ; reflexivity). replace (INR 256) with 256 by (rewrite INR_IZR_INZ; reflexivity). lra. }
  intros x Hx. cbn [reversed concat app In] in Hx. unfold Rabs. destruct (Rcase_abs x); lra.
Qed.
(** The radial offsets reversed: the observation of a tilted telescope. *)
Example C101_nonvacuous_fit d : 0 < d < 1 / 10 -> exists t e r0 s', let a := reversed_args in let a' := tilt_args (1 / 2) in let orc := tilt_oracle t in
  let p := [1; - (29 / 2); 7 / 5; 0; 0; 0; 0; 1 / 2] in
  file_tree tilt_fs /\ run (fit_zpoly orc a') tilt_fs = (Ok tt, s') /\ free_number a' tilt_fs /\ configured a' tilt_fs tilt_config /\ valid_config tilt_config /\
  best_from orc a' tilt_config 1 e /\ set_up Reverse_dz a /\ recorded Reverse_dz a a' /\ closed_under Reverse_dz tilt_config /\ allowed tilt_config 1 p /\ explained a p r0 /\
  0 < e /\ sum_sq r0 = 0 /\ determined a tilt_config 1 (p ++ repeat 0 (coeffs 1 - coeffs 1)) (sum_sq r0 + e) d.
Proof.
  intros Hd. destruct (tilt_close d Hd) as (t & Ht & Q1 & Q2). destruct (tilt_fit t Ht) as [s' Hs].
  exists t, (3 * (tilt_q (1 / 2) - tilt_q t) ^ 2), (concat (repeat [0; 0; 0; 0] 3)), s'. cbv zeta. set (p := [1; - (29 / 2); 7 / 5; 0; 0; 0; 0; 1 / 2]).
  pose proof reversed_set_up as U. pose proof reversed_recorded as A.
  assert (T : allowed tilt_config 1 p) by (apply tilt_allowed; exists (1 / 2); split; [lra|reflexivity]).
  assert (PP : params_under Reverse_dz 1 p = p) by (cbv -[IZR Rmult Ropp Rdiv Rinv]; repeat (f_equal; try lra)).
  assert (S0 : sum_sq (concat (repeat [0; 0; 0; 0] 3)) = 0) by (cbn; ring).
  split; [exact tilt_tree|]. split; [exact Hs|]. split; [apply tilt_free|]. split; [reflexivity|]. split; [exact tilt_valid|]. split; [apply tilt_best; lra|].
  split; [exact U|]. split; [exact A|]. split; [exact tilt_closed|]. split; [exact T|].
  split. { apply (explained_under Reverse_dz reversed_args (tilt_args (1 / 2)) 1 p _ U A eq_refl). rewrite PP. pose proof (tilt_explained (1 / 2) (1 / 2) ltac:(lra) ltac:(lra)) as X. cbv zeta in X. rewrite Rminus_diag_eq in X by reflexivity. exact X. }
  split; [pose proof (tilt_q_increasing (1 / 2) t ltac:(lra) ltac:(lra) ltac:(lra)); nra|]. split; [exact S0|]. rewrite S0, Rplus_0_l. change (p ++ repeat 0 (coeffs 1 - coeffs 1)) with p.
  intros q r Hq Hx He. pose proof (tilt_determined d t Hd Ht Q1 Q2) as D. rewrite <- (params_back Reverse_dz 1 q (proj1 Hq)). rewrite <- PP. apply near_under; [apply params_len, (proj1 Hq)|reflexivity|].
  apply (D _ r); [apply tilt_closed; [lia|exact Hq]| |exact He]. apply (explained_under Reverse_dz reversed_args (tilt_args (1 / 2)) 1 q r U A (proj1 Hq)). exact Hx.
Qed.
(** Both conventions fitted. *)
Example C101_nonvacuous_equal t : 1 / 2 < t <= 3 / 5 -> exists s' t', let a := reversed_args in let a' := tilt_args (1 / 2) in let e := 3 * (tilt_q (1 / 2) - tilt_q t) ^ 2 in
  file_tree tilt_fs /\ run (fit_zpoly (tilt_oracle t) a) tilt_fs = (Ok tt, s') /\ run (fit_zpoly (tilt_oracle t) a') tilt_fs = (Ok tt, t') /\ free_number a tilt_fs /\ free_number a' tilt_fs /\
  configured a tilt_fs tilt_config /\ configured a' tilt_fs tilt_config /\ valid_config tilt_config /\ best_from (tilt_oracle t) a tilt_config 1 e /\ best_from (tilt_oracle t) a' tilt_config 1 e /\
  set_up Reverse_dz a /\ recorded Reverse_dz a a' /\ closed_under Reverse_dz tilt_config /\ (1 <= fa_order_max a)%nat /\ (1 <= fa_order_max a')%nat.
Proof.
  intros Ht. destruct (reversed_fit t Ht) as [s' R]. destruct (tilt_fit t Ht) as [t' R']. exists s', t'. cbv zeta.
  split; [exact tilt_tree|]. split; [exact R|]. split; [exact R'|]. split; [exact reversed_free|]. split; [apply tilt_free|]. split; [reflexivity|]. split; [reflexivity|]. split; [exact tilt_valid|].
  split; [exact (like_best _ t reversed_like Ht)|]. split; [exact (tilt_best t Ht)|]. split; [exact reversed_set_up|]. split; [exact reversed_recorded|]. split; [exact tilt_closed|]. split; cbn; lia.
Qed.
