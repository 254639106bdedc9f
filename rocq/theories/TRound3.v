(** C110: rounding errors of the phase map. *)
From Coq Require Import Reals ZArith List Lia Lra.
From Verif Require Import PyBase Num MMath MAperture SFloat MFloat MFloat2 MFloat3 SRound SRound2 PPolar PRound PRound2 PRound3 PRound9.
Import ListNotations.
Open Scope R_scope.

(** C110. Every pixel of the phase map further than 2^-47 from the rim, relative to the square of the radius, is within
    15 loss(n) e of the exact one, relative to a full turn times the sum of the absolute coefficients. *)
Theorem C110_phase e lm at2 (n : nat) K pr piston tilt N : accurate e lm -> accurate_angle e at2 -> unit_roundoff <= e -> (2 * length K = (n + 1) * (n + 2))%nat -> (tilt = false -> 1 <= n)%nat -> (8 * Z.of_nat (length K) + 1 < 2 ^ 53)%Z -> loss n * e <= / 200 ->
  / 2 ^ 100 <= pr -> INR N <= 2 ^ 50 -> (2 <= N)%nat ->
  exists x y phi x64 y64 phi64, phase K pr piston tilt N = Ok (x, y, phi) /\ phase64 lm at2 K pr piston tilt N = Ok (x64, y64, phi64) /\ length phi64 = N /\
    forall i j, (i < N)%nat -> (j < N)%nat -> length (nth j phi64 []) = N /\
      (/ 2 ^ 47 * pr ^ 2 < Rabs (nth i x 0 ^ 2 + nth j y 0 ^ 2 - pr ^ 2) ->
       Rabs (nth i (nth j phi64 []) 0 - nth i (nth j phi []) 0) <= 15 * loss n * e * (2 * PI * (total_abs K + INR (length K) * tiny))).
Proof. exact (phase_err e lm at2 n K pr piston tilt N). Qed.
Print Assumptions C110_phase.

(** With an even number of points, as in the default of 1000, this is every pixel. *)
Theorem C110_even e lm at2 (n : nat) K pr piston tilt N : accurate e lm -> accurate_angle e at2 -> unit_roundoff <= e -> (2 * length K = (n + 1) * (n + 2))%nat -> (tilt = false -> 1 <= n)%nat -> (8 * Z.of_nat (length K) + 1 < 2 ^ 53)%Z -> loss n * e <= / 200 ->
  / 2 ^ 100 <= pr -> INR N <= 2 ^ 23 -> (2 <= N)%nat -> Nat.even N = true ->
  exists x y phi x64 y64 phi64, phase K pr piston tilt N = Ok (x, y, phi) /\ phase64 lm at2 K pr piston tilt N = Ok (x64, y64, phi64) /\
    forall i j, (i < N)%nat -> (j < N)%nat ->
       Rabs (nth i (nth j phi64 []) 0 - nth i (nth j phi []) 0) <= 15 * loss n * e * (2 * PI * (total_abs K + INR (length K) * tiny)).
Proof. exact (phase_err_even e lm at2 n K pr piston tilt N). Qed.
Print Assumptions C110_even.

(** Up to order 10, with functions accurate to 2^-52, less than 1.9e-9 of a full turn times that sum. *)
Theorem C110_order_ten lm at2 (n : nat) K pr piston tilt N : accurate (/ 2 ^ 52) lm -> accurate_angle (/ 2 ^ 52) at2 -> (n <= 10)%nat -> (2 * length K = (n + 1) * (n + 2))%nat -> (tilt = false -> 1 <= n)%nat ->
  / 2 ^ 100 <= pr -> INR N <= 2 ^ 23 -> (2 <= N)%nat -> Nat.even N = true ->
  exists x y phi x64 y64 phi64, phase K pr piston tilt N = Ok (x, y, phi) /\ phase64 lm at2 K pr piston tilt N = Ok (x64, y64, phi64) /\
    forall i j, (i < N)%nat -> (j < N)%nat ->
       Rabs (nth i (nth j phi64 []) 0 - nth i (nth j phi []) 0) <= / 2 ^ 29 * (2 * PI * (total_abs K + INR (length K) * tiny)).
Proof. exact (phase_err_ten lm at2 n K pr piston tilt N). Qed.
Print Assumptions C110_order_ten.

(** The computation raises an exception where the exact model does, and the same. *)
Theorem C110_exceptions lm at2 K pr piston tilt N er : (8 * Z.of_nat (length K) + 1 < 2 ^ 53)%Z ->
  (phase K pr piston tilt N = Err er <-> phase64 lm at2 K pr piston tilt N = Err er).
Proof. exact (fun H => alike_phase lm at2 K pr piston tilt N H er). Qed.
Print Assumptions C110_exceptions.

(** A library that rounds correctly, the exact arctangent, an arctangent that takes the other side of the cut;
    a dish of 50 m at the default resolution, order 2. *)
Example C110_nonvacuous : accurate (/ 2 ^ 52) correct_libm /\ accurate_angle (/ 2 ^ 52) arctan2 /\
  accurate_angle (/ 2 ^ 52) (fun y x => if Req_EM_T (arctan2 y x) PI then - PI else arctan2 y x) /\
  (2 * length [1; 2; 3; 4; 5; 6] = (2 + 1) * (2 + 2))%nat /\ / 2 ^ 100 <= 50 /\ INR 1000 <= 2 ^ 23 /\ Nat.even 1000 = true /\
  phase [1; 2] 50 false false 1000 = Err IndexError.
Proof.
  assert (P : 0 < / 2 ^ 52) by (apply Rinv_0_lt_compat, pow_lt; lra). split; [exact correct_accurate|]. split.
  { intros y x. pose proof (arctan2_range x y). split; [apply Rabs_le; lra|]. exists 0%Z. replace (arctan2 y x - arctan2 y x - 2 * PI * 0) with 0 by ring. rewrite Rabs_R0. lra. }
  split. { intros y x. pose proof (arctan2_range x y). pose proof PI_RGT_0. destruct (Req_EM_T (arctan2 y x) PI) as [E|E].
    - split; [apply Rabs_le; lra|]. exists (-1)%Z. rewrite E. replace (- PI - PI - 2 * PI * -1) with 0 by ring. rewrite Rabs_R0. lra.
    - split; [apply Rabs_le; lra|]. exists 0%Z. replace (arctan2 y x - arctan2 y x - 2 * PI * 0) with 0 by ring. rewrite Rabs_R0. lra. }
  split; [reflexivity|]. split. { apply Rle_trans with (/ 1); [apply Rinv_le_contravar; lra|lra]. } split; [rewrite INR_IZR_INZ; cbn [Z.of_nat Pos.of_succ_nat Pos.succ]; lra|]. split; reflexivity.
Qed.
