(** Property theorems: C97 (the covariances of a fit). *)
From Coq Require Import String List ZArith Lia Lra.
From Verif Require Import PyBase Num MMath SMath MAperture MCore MFs MOut MCoMat SOut SFit SMat SBest SRecover SCov PFit6 PDemo PEndDemo PBest2 PRecover3 PCov PCov2 PCov3.
Import ListNotations.
Open Scope R_scope.
Open Scope string_scope.
Open Scope list_scope.

(** C97. What a fit that ends well has stored: for every order, the columns of the stored
    Jacobian are independent, the stored residual is not zero throughout, and the stored
    covariances and correlations are those of the stored residual and Jacobian. *)
Theorem C97_stored orc a s s' c : file_tree s -> run (fit_zpoly orc a) s = (Ok tt, s') -> free_number a s -> configured a s c -> valid_config c -> (length (cf_excluded c) < 8)%nat ->
  own_covariances orc -> sized_answers orc -> (forall n start out, (1 <= n <= fa_order_max a)%nat -> answered orc a c n start out -> overdetermined out) ->
  exists j, (j <= 100)%nat /\ s (numbered (fit_dir a) (fa_name a) j) = None /\
  forall n, (1 <= n <= fa_order_max a)%nat -> let d := numbered (fit_dir a) (fa_name a) j in exists r J idx cov cor,
    csv_file s' d ("res_n" ^^ dec n ^^ ".csv") ("Residual " ^^ fa_name a) (A2 (map (map Fin) r)) /\
    csv_file s' d ("jac_n" ^^ dec n ^^ ".csv") ("Jacobian " ^^ fa_name a) (A2 (map (map Fin) J)) /\
    csv_file s' d ("cov_n" ^^ dec n ^^ ".csv") ("Variance-Covariance matrix (first row fitted parameters idx) " ^^ fa_name a) (A2 (map (map Fin) (idx :: cov))) /\
    csv_file s' d ("corr_n" ^^ dec n ^^ ".csv") ("Correlation matrix (first row fitted parameters idx) " ^^ fa_name a) (A2 (map (map Fin) (idx :: cor))) /\
    matrix (length (concat r)) (length idx) J /\ (0 < length idx < length (concat r))%nat /\ independent_columns (length (concat r)) (length idx) J /\
    (exists t, In t (concat r) /\ t <> 0) /\ covariance_of J (concat r) (length idx) cov cor.
Proof. exact (own_stored orc a s s' c). Qed.
Print Assumptions C97_stored.
(** The fit ends well whenever the answers have independent columns and residuals that are
    not zero throughout. *)
Theorem C97_completes orc a s c : file_tree s -> usable (fit_dir a) s -> free_number a s -> configured a s c -> valid_config c -> own_covariances orc -> regular_answers orc a c ->
  0 < tel_pr (fa_tel a) -> three_maps a -> exists s', run (fit_zpoly orc a) s = (Ok tt, s').
Proof. exact (own_completes orc a s c). Qed.
Print Assumptions C97_completes.
(** Where the amplitude of the illumination is fitted, as in the default configuration,
    they never have: the fit raises LinAlgError before it stores anything, in exact
    arithmetic, whatever the maps and however the Jacobian is computed. *)
Theorem C97_amplitude_refuted orc a s c : file_tree s -> usable (fit_dir a) s -> free_number a s -> configured a s c -> valid_config c -> amplitude_fitted c -> fa_illum a = illum_parabolic ->
  0 < tel_pr (fa_tel a) -> three_maps a -> (1 <= fa_order_max a)%nat -> own_covariances orc -> least_squares_answers orc a c ->
  (exists out, answered orc a c 1 (cf_init c) out) -> (forall out, answered orc a c 1 (cf_init c) out -> (length (lo_fun out) mod 3 = 0)%nat /\ nth 0 (lo_x out) 0 <> 0) ->
  exists s', run (fit_zpoly orc a) s = (Err LinAlgError, s') /\ no_new_file s s'.
Proof. exact (fit_fails orc a s c). Qed.
Print Assumptions C97_amplitude_refuted.
(** Nor when the optimizer finds parameters that explain the maps exactly. *)
Theorem C97_exact_refuted orc a s c : file_tree s -> usable (fit_dir a) s -> free_number a s -> configured a s c -> valid_config c -> (length (cf_excluded c) < 8)%nat -> three_maps a -> (1 <= fa_order_max a)%nat ->
  own_covariances orc -> (exists out, answered orc a c 1 (cf_init c) out) ->
  (forall out, answered orc a c 1 (cf_init c) out -> (length (lo_fun out) mod 3 = 0)%nat /\ feasible c 1 (lo_x out) /\ overdetermined out /\ forall t, In t (lo_fun out) -> t = 0) ->
  exists s', run (fit_zpoly orc a) s = (Err LinAlgError, s') /\ no_new_file s s'.
Proof. exact (exact_fails orc a s c). Qed.
Print Assumptions C97_exact_refuted.
(** A fit of a tilt that stops close to the solution ... *)
Example C97_nonvacuous : let a := tilt_args (1 / 2) in let orc := tilt_oracle (3 / 5) in exists s', run (fit_zpoly orc a) tilt_fs = (Ok tt, s') /\ file_tree tilt_fs /\ usable (fit_dir a) tilt_fs /\
  free_number a tilt_fs /\ configured a tilt_fs tilt_config /\ valid_config tilt_config /\ (length (cf_excluded tilt_config) < 8)%nat /\ own_covariances orc /\ sized_answers orc /\
  (forall n start out, (1 <= n <= fa_order_max a)%nat -> answered orc a tilt_config n start out -> overdetermined out) /\ regular_answers orc a tilt_config /\ three_maps a /\ fa_order_max a = 1%nat.
Proof.
  intros a orc. destruct (tilt_fit (3 / 5) ltac:(lra)) as [s' R]. exists s'. split; [exact R|]. split; [exact tilt_tree|]. split; [apply tilt_usable|]. split; [apply tilt_free|]. split; [reflexivity|]. split; [exact tilt_valid|].
  split; [cbn; lia|]. split; [intros rs J k; reflexivity|]. split; [apply careful_sized|]. split; [intros n start out; apply tilt_over; lra|]. split; [apply tilt_regular; lra|]. split; [apply tilt_maps|reflexivity].
Qed.
(** ... one that hits it ... *)
Example C97_nonvacuous_exact : let a := tilt_args (1 / 2) in let orc := tilt_oracle (1 / 2) in (exists out, answered orc a tilt_config 1 (cf_init tilt_config) out) /\
  (forall out, answered orc a tilt_config 1 (cf_init tilt_config) out ->
     (length (lo_fun out) mod 3 = 0)%nat /\ feasible tilt_config 1 (lo_x out) /\ overdetermined out /\ forall t, In t (lo_fun out) -> t = 0).
Proof. split; [apply tilt_answered; lra|exact tilt_hit]. Qed.
(** ... and one with the default configuration. *)
Example C97_nonvacuous_amplitude : let a := best_args 1 in let c := default_config in let orc := amp_oracle in file_tree demo_fs /\ usable (fit_dir a) demo_fs /\ free_number a demo_fs /\ fa_config_file a = None /\
  configured a demo_fs c /\ valid_config c /\ amplitude_fitted c /\ fa_illum a = illum_parabolic /\ 0 < tel_pr (fa_tel a) /\ three_maps a /\ own_covariances orc /\ least_squares_answers orc a c /\
  (exists out, answered orc a c 1 (cf_init c) out) /\ (forall out, answered orc a c 1 (cf_init c) out -> (length (lo_fun out) mod 3 = 0)%nat /\ nth 0 (lo_x out) 0 <> 0).
Proof.
  split; [exact demo_tree|]. split; [apply best_usable|]. split; [apply best_free|]. split; [reflexivity|]. split; [reflexivity|]. split; [exact default_valid|]. split; [exact amp_default|]. split; [reflexivity|]. split; [cbn; lra|].
  split; [apply best_maps|]. split; [intros rs J k; reflexivity|]. split; [exact amp_answers|]. split; [exact amp_answered|exact amp_shape].
Qed.
