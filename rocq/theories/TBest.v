(** C94: fits of higher order against fits of lower order. *)
From Coq Require Import String List Lia Lra.
From Verif Require Import PyBase Num MMath MAperture MCore MFs MOut SOut SFit SBest PDemo PFit6 PFit7 PBest PBest2.
Import ListNotations.
Open Scope R_scope.
Open Scope string_scope.
Open Scope list_scope.

(** C94. What order n can describe, order n + k can describe: the same vector with
    zeros for the new coefficients is within the bounds and has the same residual. *)
Theorem C94_nested a c n k x : valid_config c -> (1 <= n)%nat -> feasible c n x -> let x' := x ++ repeat 0 (coeffs (n + k) - coeffs n) in
  feasible c (n + k) x' /\ misfit a c (n + k) x' = misfit a c n x.
Proof. exact (nested a c n k x). Qed.
Print Assumptions C94_nested.
(** With an optimizer that finds the best feasible vector up to a tolerance e, the sum
    of squares of the stored residuals does not grow by more than e with the order. *)
Theorem C94_monotone orc a s s' c e : file_tree s -> run (fit_zpoly orc a) s = (Ok tt, s') -> free_number a s -> configured a s c -> valid_config c ->
  (forall n start out, (1 <= n <= fa_order_max a)%nat -> length start = (5 + coeffs n)%nat -> answered orc a c n start out -> optimal a c n e out) ->
  exists j, (j <= 100)%nat /\ s (numbered (fit_dir a) (fa_name a) j) = None /\
  forall n m, (1 <= n <= m)%nat -> (m <= fa_order_max a)%nat -> exists r r',
    csv_file s' (numbered (fit_dir a) (fa_name a) j) ("res_n" ^^ dec n ^^ ".csv") ("Residual " ^^ fa_name a) (A2 (map (map Fin) r)) /\
    csv_file s' (numbered (fit_dir a) (fa_name a) j) ("res_n" ^^ dec m ^^ ".csv") ("Residual " ^^ fa_name a) (A2 (map (map Fin) r')) /\
    sum_sq (concat r') <= sum_sq (concat r) + e.
Proof. exact (best_monotone orc a s s' c e). Qed.
Print Assumptions C94_monotone.
(** If some feasible vector of order m explains the data exactly, so do the stored
    fits of order m and above, up to the tolerance. *)
Theorem C94_exact orc a s s' c e m x r0 : file_tree s -> run (fit_zpoly orc a) s = (Ok tt, s') -> free_number a s -> configured a s c -> valid_config c ->
  (forall n start out, (1 <= n <= fa_order_max a)%nat -> length start = (5 + coeffs n)%nat -> answered orc a c n start out -> optimal a c n e out) ->
  (1 <= m)%nat -> feasible c m x -> misfit a c m x = Ok r0 -> (forall t, In t r0 -> t = 0) ->
  exists j, (j <= 100)%nat /\ s (numbered (fit_dir a) (fa_name a) j) = None /\
  forall n, (m <= n <= fa_order_max a)%nat -> exists r,
    csv_file s' (numbered (fit_dir a) (fa_name a) j) ("res_n" ^^ dec n ^^ ".csv") ("Residual " ^^ fa_name a) (A2 (map (map Fin) r)) /\ sum_sq (concat r) <= e.
Proof. exact (fun W R F C V O => best_exact orc a s s' c e W R F C V O m x r0). Qed.
Print Assumptions C94_exact.
(** It is not enough that the optimizer never returns something worse than its start:
    order 2 starts with 0.1, not 0, for its new coefficients, and can end up worse than
    an order 1 that explains the data exactly. *)
Theorem C94_start_refuted : exists orc a s s' c j r1 r2, file_tree s /\ run (fit_zpoly orc a) s = (Ok tt, s') /\ free_number a s /\ configured a s c /\ valid_config c /\
  fa_fit_previous a = true /\ fa_order_max a = 2%nat /\
  (forall n start out, (1 <= n <= fa_order_max a)%nat -> length start = (5 + coeffs n)%nat -> answered orc a c n start out -> descended a c n start out) /\
  s (numbered (fit_dir a) (fa_name a) j) = None /\
  csv_file s' (numbered (fit_dir a) (fa_name a) j) "res_n1.csv" ("Residual " ^^ fa_name a) (A2 (map (map Fin) r1)) /\
  csv_file s' (numbered (fit_dir a) (fa_name a) j) "res_n2.csv" ("Residual " ^^ fa_name a) (A2 (map (map Fin) r2)) /\
  sum_sq (concat r1) = 0 /\ 0 < sum_sq (concat r2).
Proof.
  destruct lazy_worse as (s' & j & r1 & r2 & R & _ & N & C1 & C2 & S1 & S2). exists (pick lazy), (best_args 2), demo_fs, s', default_config, j, r1, r2.
  split; [exact demo_tree|]. split; [exact R|]. split; [exists 0%nat; split; [lia|apply demo_numbered]|]. split; [reflexivity|]. split; [exact default_valid|]. split; [reflexivity|]. split; [reflexivity|].
  split; [exact (lazy_descends 2)|]. split; [exact N|]. split; [exact C1|]. split; [exact C2|]. split; [exact S1|exact S2].
Qed.
Print Assumptions C94_start_refuted.
(** Observations of an undistorted telescope, three orders, an optimizer that finds the
    exact solution; an order-2 vector that is worse. *)
Example C94_nonvacuous : exists s', let a := best_args 3 in run (fit_zpoly (pick home) a) demo_fs = (Ok tt, s') /\ file_tree demo_fs /\ free_number a demo_fs /\
  configured a demo_fs default_config /\ valid_config default_config /\
  (forall n start out, (1 <= n <= fa_order_max a)%nat -> length start = (5 + coeffs n)%nat -> answered (pick home) a default_config n start out -> optimal a default_config n 0 out) /\
  feasible default_config 1 [1; 0; 0] /\ misfit a default_config 1 [1; 0; 0] = Ok (repeat 0 9) /\
  exists r, misfit a default_config 2 [1; 0; 0; 1 / 10; 1 / 10; 1 / 10] = Ok r /\ 0 < sum_sq r.
Proof.
  destruct (pick_runs home 3) as [s' R]. exists s'. intros a. split; [exact R|]. split; [exact demo_tree|]. split; [exists 0%nat; split; [lia|apply demo_numbered]|]. split; [reflexivity|]. split; [exact default_valid|].
  split; [exact (home_optimal 3)|]. split; [exact first_feasible|]. split; [exact (first_exact 3)|].
  pose proof spot_angle as SA. eexists. split; [unfold a; rewrite misfit_spot; apply spot_residual; lra|].
  set (q := Rdiv _ _). assert (0 < q) by (unfold q; apply Rdiv_lt_0_compat; nra). unfold sum_sq. cbn [fold_right]. nra.
Qed.
