(** C108, C109: rounding errors of rms and e_rs, of grids, of the rim of the dish and of the axes. *)
From Coq Require Import Reals ZArith List Lia Lra Permutation.
From Verif Require Import PyBase PyLib Num MMath MAperture MRad SMath SFloat MFloat MFloat2 SRound SRound2 PRms PRound PRound4 PRound5 PRound6 PRound7 MTel PIllum PGain2.
Import ListNotations.
Open Scope R_scope.

(** C108. In whatever order numpy adds, rms in binary64 is within (d + 4) 2^-52 of the exact value, relative to
    it, where d is the most additions a summand goes through. *)
Theorem C108_rms m t : concat m <> [] -> INR (length (concat m)) <= 2 ^ 50 -> INR (depth t) <= 2 ^ 50 -> adds t (concat m) ->
  exists r, rms_plain (map (map Fin) m) = Fin r /\ 0 <= r /\ Rabs (rms64 t (length (concat m)) - r) <= (INR (depth t) + 4) * / 2 ^ 52 * r + / 2 ^ 400.
Proof. exact (rms_err m t). Qed.
Print Assumptions C108_rms.

(** With circ=True on a map with an even number of pixels, binary64 takes the same pixels, and the same bound holds. *)
Theorem C108_circle n a t : (4 <= n)%nat -> Nat.even n = true -> INR n <= 2 ^ 23 -> INR (depth t) <= 2 ^ 50 -> adds t (inside64 n a) ->
  exists r P', rms_circ (grid n (fun j i => Fin (a j i))) = Ok (Fin r, P') /\ 0 <= r /\ Rabs (rms64 t (length (inside64 n a)) - r) <= (INR (depth t) + 4) * / 2 ^ 52 * r + / 2 ^ 400.
Proof. exact (rms_circ_err n a t). Qed.
Print Assumptions C108_circle.

(** The random-surface-error efficiency, with a power and an exponential accurate to e. *)
Theorem C108_efficiency e sq ex m t : 0 <= e <= 1 -> (forall x, 0 <= sq x /\ Rabs (sq x - x ^ 2) <= e * (x ^ 2 + 1)) -> (forall x, x <= 0 -> Rabs (ex x - exp x) <= e) ->
  concat m <> [] -> INR (length (concat m)) <= 2 ^ 50 -> INR (depth t) <= 2 ^ 50 -> adds t (concat m) ->
  exists r v, rms_plain (map (map Fin) m) = Fin r /\ e_rs_plain (map (map Fin) m) = Fin v /\
    Rabs (e_rs64 sq ex t (length (concat m)) - v) <= e + 3 * (e + (INR (depth t) + 4) * / 2 ^ 52) * (r + 1) ^ 2.
Proof. exact (e_rs_err e sq ex m t). Qed.
Print Assumptions C108_efficiency.

(** Every list of numbers can be added; one order; exact functions are accurate; a 4 by 4 map. *)
Example C108_nonvacuous : (forall l, l <> [] -> exists t, adds t l /\ (S (depth t) <= length l)%nat) /\
  adds (Plus (Plus (One 3) (One 1)) (Plus (One 0) (One 2))) (concat [[1; 2]; [3]]) /\ depth (Plus (Plus (One 3) (One 1)) (Plus (One 0) (One 2))) = 2%nat /\
  (forall x, 0 <= x ^ 2 /\ Rabs (x ^ 2 - x ^ 2) <= / 2 ^ 52 * (x ^ 2 + 1)) /\ (forall x, x <= 0 -> Rabs (exp x - exp x) <= / 2 ^ 52) /\
  inside64 4 (fun j i => INR (4 * j + i)) <> [].
Proof.
  split; [exact adds_some|]. split.
  { exists 1%nat. split; [cbn; lia|]. cbn [concat app repeat summands]. apply NoDup_Permutation_bis; [|cbn; lia|intros x; cbn [In]; tauto].
    repeat (constructor; [cbn [In]; lra|]). constructor. }
  split; [reflexivity|]. assert (P : 0 < / 2 ^ 52) by (apply Rinv_0_lt_compat, pow_lt; lra). split. { intros x. rewrite Rminus_diag_eq, Rabs_R0 by reflexivity. split; nra. }
  split. { intros x _. rewrite Rminus_diag_eq, Rabs_R0 by reflexivity. lra. }
  rewrite inside_disk by (first [reflexivity|lia|cbn [INR]; lra]). apply disk_list_some; [lia|reflexivity].
Qed.

(** C109. Every point of linspace(-B, B, n) is within 2^-49 B of the exact one, and the points are strictly increasing. *)
Theorem C109_grid B n : / 2 ^ 100 <= B -> INR n <= 2 ^ 48 -> (2 <= n)%nat ->
  (forall i, (i < n)%nat -> Rabs (linspace64 (- B) B n i - nth i (linspace (- B) B n) 0) <= / 2 ^ 49 * B) /\
  (forall i, (S i < n)%nat -> linspace64 (- B) B n i < linspace64 (- B) B n (S i)).
Proof. exact (grid_api B n). Qed.
Print Assumptions C109_grid.

(** A pixel further than 2^-47 from the rim, relative to the radius, is on the side where exact arithmetic puts it. *)
Theorem C109_rim r n i j : / 2 ^ 100 <= r -> INR n <= 2 ^ 50 -> (2 <= n)%nat -> (i < n)%nat -> (j < n)%nat ->
  let x := nth i (linspace (- r) r n) 0 in let y := nth j (linspace (- r) r n) 0 in
  / 2 ^ 47 * r ^ 2 < Rabs (x ^ 2 + y ^ 2 - r ^ 2) -> outside64 r n i j = Rltb (r ^ 2) (x ^ 2 + y ^ 2).
Proof. exact (rim r n i j). Qed.
Print Assumptions C109_rim.

(** With an even number of points this is every pixel. *)
Theorem C109_rim_even r n i j : / 2 ^ 100 <= r -> INR n <= 2 ^ 23 -> (2 <= n)%nat -> Nat.even n = true -> (i < n)%nat -> (j < n)%nat ->
  let x := nth i (linspace (- r) r n) 0 in let y := nth j (linspace (- r) r n) 0 in outside64 r n i j = Rltb (r ^ 2) (x ^ 2 + y ^ 2).
Proof. exact (rim_even r n i j). Qed.
Print Assumptions C109_rim_even.

(** The axes of the radiation pattern are within N 2^-49 of the exact ones, entry by entry. *)
Theorem C109_axes illum tel I K d_z wavel N bf ua va F : / 2 ^ 100 <= tel_pr tel * bf <= 2 ^ 100 -> / 2 ^ 100 <= wavel <= 2 ^ 100 -> INR N <= 2 ^ 40 ->
  radiation_pattern illum tel I K d_z wavel N bf = Ok (ua, va, F) -> forall i, (i < N)%nat ->
  Rabs (u_axis64 (tel_pr tel) bf wavel N i - nth i ua 0) <= INR N * / 2 ^ 49 * Rabs (nth i ua 0) /\ nth i va 0 = nth i ua 0.
Proof. exact (u_axis_err illum tel I K d_z wavel N bf ua va F). Qed.
Print Assumptions C109_axes.

(** They are exactly 0 in the middle, exactly antisymmetric about it and strictly increasing. *)
Theorem C109_axes_order pr bf wavel N : / 2 ^ 100 <= pr * bf <= 2 ^ 100 -> / 2 ^ 100 <= wavel <= 2 ^ 100 -> INR N <= 2 ^ 40 -> (2 <= N)%nat ->
  u_axis64 pr bf wavel N (N / 2) = 0 /\ (forall j, (j <= N / 2)%nat -> u_axis64 pr bf wavel N (N / 2 + j) = - u_axis64 pr bf wavel N (N / 2 - j)) /\
  forall i, (S i < N)%nat -> u_axis64 pr bf wavel N i < u_axis64 pr bf wavel N (S i).
Proof. exact (u_axis_exact pr bf wavel N). Qed.
Print Assumptions C109_axes_order.

(** A dish of 50 m in a box five times as large, 256 points, 1 cm. *)
Definition tel109 : telgeo := {| block_dist := block_manual 50 3 1 20; opd_func := opd_manual 30 300; tel_pr := 50 |}.
Example C109_nonvacuous : / 2 ^ 100 <= tel_pr tel109 * 5 <= 2 ^ 100 /\ / 2 ^ 100 <= 1 / 100 <= 2 ^ 100 /\ INR 256 <= 2 ^ 23 /\ Nat.even 256 = true /\
  exists ua va F, radiation_pattern illum_parabolic tel109 [1; -14; 2; 0; 0] [1; 2; 3; 4; 5; 6] (1 / 50) (1 / 100) 256 5 = Ok (ua, va, F).
Proof.
  assert (/ 2 ^ 100 <= / 1000000) by (apply Rinv_le_contravar; lra). split; [cbn [tel_pr tel109]; lra|]. split; [lra|]. split; [rewrite INR_IZR_INZ; cbn [Z.of_nat Pos.of_succ_nat Pos.succ]; lra|]. split; [reflexivity|].
  destruct (proj1 (par_arity [1; -14; 2; 0; 0] (tel_pr tel109)) eq_refl) as [Ea EI].
  exact (rad_some illum_parabolic tel109 [1; -14; 2; 0; 0] [1; 2; 3; 4; 5; 6] (1 / 50) (1 / 100) 256 5 2 Ea ltac:(lia) eq_refl EI).
Qed.
