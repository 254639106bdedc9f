(** Property theorems: C111 (the order of the readings, and broken readings). *)
From Coq Require Import String List Permutation ZArith Lia Lra.
From Verif Require Import PyBase PyLib Num MMath SMath MAperture MTel MRad MCore MFs MOut MCoMat SCore SOut SFit SBest SMat SRepro SShuffle PResid PDemo PBest2 PFit6 PFit7 PShuffle2.
Import ListNotations.
Open Scope R_scope.
Open Scope string_scope.
Open Scope list_scope.

(** C111. The three maps may be given in any order, and the readings of each map in any
    order: every reading keeps its residual, so the sum of squares is the same. *)
Theorem C111_residual illum tel p e e' wavel N bf r : length e = 3%nat -> shuffled e e' ->
  residual_true illum tel p (values e) (us e) (vs e) (offsets e) wavel N bf = Ok r ->
  exists r', residual_true illum tel p (values e') (us e') (vs e') (offsets e') wavel N bf = Ok r' /\ Permutation (labelled e r) (labelled e' r') /\ Permutation r r' /\ sum_sq r' = sum_sq r.
Proof. exact (residual_shuffle_all illum tel p e e' wavel N bf r). Qed.
Print Assumptions C111_residual.
(** The same parameters are the best ones. *)
Theorem C111_best a a' c n tol e e' out : observes a e -> observes a' e' -> same_model a a' -> length e = 3%nat -> shuffled e e' ->
  optimal a c n tol out -> exists r', Permutation (labelled e (lo_fun out)) (labelled e' r') /\ sum_sq r' = sum_sq (lo_fun out) /\ forall J, optimal a' c n tol (with_residual out r' J).
Proof. exact (best_shuffle a a' c n tol e e' out). Qed.
Print Assumptions C111_best.
(** Two fits, with optimizers that find the best parameters up to tolerances tol and tol',
    store residuals with the same sums of squares up to these tolerances. *)
Theorem C111_fit orc orc' a a' s s' t t' c e e' tol tol' : file_tree s -> file_tree t -> run (fit_zpoly orc a) s = (Ok tt, s') -> run (fit_zpoly orc' a') t = (Ok tt, t') ->
  free_number a s -> free_number a' t -> configured a s c -> configured a' t c -> observes a e -> observes a' e' -> same_model a a' -> length e = 3%nat -> shuffled e e' ->
  (forall n start out, (1 <= n <= fa_order_max a)%nat -> length start = (5 + coeffs n)%nat -> answered orc a c n start out -> optimal a c n tol out) ->
  (forall n start out, (1 <= n <= fa_order_max a')%nat -> length start = (5 + coeffs n)%nat -> answered orc' a' c n start out -> optimal a' c n tol' out) ->
  exists j k, (j <= 100)%nat /\ s (numbered (fit_dir a) (fa_name a) j) = None /\ (k <= 100)%nat /\ t (numbered (fit_dir a') (fa_name a') k) = None /\
  forall n, (1 <= n <= fa_order_max a)%nat -> (n <= fa_order_max a')%nat -> exists r r',
    csv_file s' (numbered (fit_dir a) (fa_name a) j) ("res_n" ^^ dec n ^^ ".csv") ("Residual " ^^ fa_name a) (A2 (map (map Fin) r)) /\
    csv_file t' (numbered (fit_dir a') (fa_name a') k) ("res_n" ^^ dec n ^^ ".csv") ("Residual " ^^ fa_name a') (A2 (map (map Fin) r')) /\
    sum_sq (concat r) <= sum_sq (concat r') + tol /\ sum_sq (concat r') <= sum_sq (concat r) + tol'.
Proof. exact (fit_shuffle orc orc' a a' s s' t t' c e e' tol tol'). Qed.
Print Assumptions C111_fit.
(** The covariances and correlations depend only on which residual goes with which row of
    the Jacobian. *)
Theorem C111_covariances k rs rs' J J' p : length J = length rs -> length J' = length rs' -> Forall (fun row => length row = k) J -> Permutation (combine rs J) (combine rs' J') ->
  co_matrices rs' J' p = co_matrices rs J p.
Proof. exact (comat_perm k rs rs' J J' p). Qed.
Print Assumptions C111_covariances.
(** One reading that is not a number, or infinite, erases its map: the residual is the
    same whatever the other readings of this map are. *)
Theorem C111_broken illum tel p maps maps' u v dz w N bf : Forall2 same_or_broken maps maps' ->
  residual_true illum tel p maps' u v dz w N bf = residual_true illum tel p maps u v dz w N bf.
Proof. exact (residual_broken illum tel p maps maps' u v dz w N bf). Qed.
Print Assumptions C111_broken.
(** And so are the stored results of a fit. *)
Theorem C111_broken_fit orc a b s s' t t' c : file_tree s -> file_tree t -> run (fit_zpoly orc a) s = (Ok tt, s') -> run (fit_zpoly orc b) t = (Ok tt, t') ->
  free_number a s -> free_number b t -> configured a s c -> configured b t c -> same_setting a b -> Forall2 same_or_broken (fa_beam a) (fa_beam b) ->
  exists j k, (j <= 100)%nat /\ s (numbered (fit_dir a) (fa_name a) j) = None /\ (k <= 100)%nat /\ t (numbered (fit_dir b) (fa_name b) k) = None /\
  forall n, (1 <= n <= fa_order_max a)%nat -> (n <= fa_order_max b)%nat ->
    same_results n s' (numbered (fit_dir a) (fa_name a) j) (fa_name a) t' (numbered (fit_dir b) (fa_name b) k) (fa_name b).
Proof. exact (fit_broken orc a b s s' t t' c). Qed.
Print Assumptions C111_broken_fit.

(** Three maps of three points, and the same the other way round. *)
Definition spots : list scan := map (fun z => (z, [(0, 0, Fin 1); (- (1 / 2000), 0, Fin 0); (- (1 / 2000), - (1 / 2000), Fin 0)])) [-1; 0; 1].
Definition spots' : list scan := map (fun z => (z, [(- (1 / 2000), - (1 / 2000), Fin 0); (- (1 / 2000), 0, Fin 0); (0, 0, Fin 1)])) [1; 0; -1].
Definition turned : fit_args := {|
  fa_name := "turned"; fa_pthto := ["w"%string]; fa_object := "3C84"; fa_date := "today"; fa_freq := 32; fa_wavel := 1 / 100; fa_d_z := offsets spots'; fa_meanel := 45;
  fa_beam := values spots'; fa_u := us spots'; fa_v := vs spots'; fa_order_max := 1;
  fa_illum := illum_parabolic; fa_illum_name := "parabolic"; fa_tel := demo_tel; fa_opd_name := "manual"; fa_tel_name := "manual";
  fa_resolution := 2; fa_box_factor := 1 / 10; fa_fit_previous := true; fa_config_file := None; fa_make_plots := true; fa_work_dir := None |}.
Example C111_nonvacuous : observes (best_args 3) spots /\ observes turned spots' /\ same_model (best_args 3) turned /\ length spots = 3%nat /\ shuffled spots spots' /\
  values spots' <> values spots /\
  optimal (best_args 3) default_config 1 0 {| lo_x := [1; 0; 0]; lo_fun := repeat 0 9; lo_jac := []; lo_grad := [] |} /\
  exists r, let e := spots in residual_true illum_parabolic demo_tel [1; - (29 / 2); 7 / 5; 0; 0; 0; 0; 0; 1 / 10; 1 / 10; 1 / 10] (values e) (us e) (vs e) (offsets e) (1 / 100) 2 (1 / 10) = Ok r /\ 0 < sum_sq r.
Proof.
  split; [repeat split|]. split; [repeat split|]. split; [repeat split|]. split; [reflexivity|]. split.
  { exists (rev spots). split; [apply Permutation_rev|]. cbn [rev map spots spots' app]. repeat (apply Forall2_cons; [split; [reflexivity|]; cbn [snd]; match goal with |- Permutation ?l _ => exact (Permutation_rev l) end|]). constructor. }
  split; [cbn; intros E; injection E; intros; lra|]. split.
  { split; [exact first_feasible|]. split; [exact (first_exact 3)|]. intros x r _ _. cbn [lo_fun]. rewrite zeros_sum. pose proof (PBest.sum_sq_nonneg r). lra. }
  pose proof spot_angle as SA. eexists. intros e. split; [apply (spot_residual 3); lra|].
  set (q := Rdiv _ _). assert (0 < q) by (unfold q; apply Rdiv_lt_0_compat; nra). unfold sum_sq. cbn [fold_right]. nra.
Qed.
(** Two fits whose maps share nothing but one broken reading each. *)
Definition broken (name : string) (m : list num) : fit_args := {|
  fa_name := name; fa_pthto := ["w"%string]; fa_object := "3C84"; fa_date := "today"; fa_freq := 32; fa_wavel := 1 / 100; fa_d_z := [-1; 0; 1]; fa_meanel := 45;
  fa_beam := [m; spot_beam; m]; fa_u := [spot_x; spot_x; spot_x]; fa_v := [spot_y; spot_y; spot_y]; fa_order_max := 3;
  fa_illum := illum_parabolic; fa_illum_name := "parabolic"; fa_tel := demo_tel; fa_opd_name := "manual"; fa_tel_name := "manual";
  fa_resolution := 2; fa_box_factor := 1 / 10; fa_fit_previous := true; fa_config_file := None; fa_make_plots := true; fa_work_dir := None |}.
Example C111_broken_nonvacuous : let a := broken "a" [Fin 1; Fin 2; NaN] in let b := broken "b" [PInf; Fin 7; Fin 0] in exists s s', 
  run (fit_zpoly (pick lazy) a) demo_fs = (Ok tt, s) /\ run (fit_zpoly (pick lazy) b) demo_fs = (Ok tt, s') /\ file_tree demo_fs /\
  free_number a demo_fs /\ free_number b demo_fs /\ configured a demo_fs default_config /\ configured b demo_fs default_config /\ same_setting a b /\ Forall2 same_or_broken (fa_beam a) (fa_beam b).
Proof.
  intros a b. assert (G : forall name m, exists s, run (fit_zpoly (pick lazy) (broken name m)) demo_fs = (Ok tt, s)).
  { intros name m. apply (fit_completes _ _ _ default_config); [exact demo_tree|split; [reflexivity|right; reflexivity]|exists 0%nat; split; [lia|apply demo_numbered]|reflexivity|exact default_valid|apply pick_cooperative|cbn; lra|].
    repeat split; try (cbn; lia); destruct i as [|[|[|i]]]; cbn; discriminate || lia. }
  destruct (G "a" [Fin 1; Fin 2; NaN]) as [s R]. destruct (G "b" [PInf; Fin 7; Fin 0]) as [s' R']. exists s, s'. split; [exact R|]. split; [exact R'|]. split; [exact demo_tree|].
  split; [exists 0%nat; split; [lia|apply demo_numbered]|]. split; [exists 0%nat; split; [lia|apply demo_numbered]|]. split; [reflexivity|]. split; [reflexivity|]. split; [repeat split|].
  assert (X : same_or_broken [Fin 1; Fin 2; NaN] [PInf; Fin 7; Fin 0]) by (split; [reflexivity|]; right; split; [exists NaN|exists PInf]; (split; [cbn; auto|exact (fun H => H)])).
  cbn [fa_beam a b broken]. apply Forall2_cons; [exact X|]. apply Forall2_cons; [split; [reflexivity|left; reflexivity]|]. apply Forall2_cons; [exact X|constructor].
Qed.
