(** C106: rounding errors of the Zernike polynomials and the wavefront. *)
From Coq Require Import Reals ZArith List Lia Lra.
From Verif Require Import PyBase MZernike SZernike MAperture SFloat MFloat SRound PRound PRound2 PRound3 Num.
From Flocq Require Import Core.
Import ListNotations.
Open Scope R_scope.

(** In binary64, with library functions accurate to e, zernike.U is within
    2 (n + 6) (5/2)^n e of the exact value everywhere on the dish. *)
Theorem C106_circle_polynomial e lm (n : nat) l : accurate e lm -> unit_roundoff <= e -> admissible (Z.of_nat n) l -> loss n * e <= / 100 ->
  exists g g64, zernike_U (PyInt (Z.of_nat n)) (PyInt l) = Ok g /\ zernike_U64 lm (PyInt (Z.of_nat n)) (PyInt l) = Ok g64 /\
    forall rho theta, 0 <= rho <= 1 -> Rabs theta <= PI -> Rabs (g64 rho theta - g rho theta) <= loss n * e.
Proof. exact (U_err e lm n l). Qed.
Print Assumptions C106_circle_polynomial.

(** The wavefront is within twice this, relative to the sum of the absolute coefficients. *)
Theorem C106_wavefront e lm (n : nat) K : accurate e lm -> unit_roundoff <= e -> (2 * length K = (n + 1) * (n + 2))%nat -> (8 * Z.of_nat (length K) + 1 < 2 ^ 53)%Z -> loss n * e <= / 100 ->
  exists W W64, wavefront K = Ok W /\ wavefront64 lm K = Ok W64 /\
    forall rho theta, 0 <= rho <= 1 -> Rabs theta <= PI -> Rabs (W64 rho theta - W rho theta) <= 2 * loss n * e * (total_abs K + INR (length K) * tiny).
Proof. exact (W_err e lm n K). Qed.
Print Assumptions C106_wavefront.

(** Up to order 10, with functions accurate to 2^-52, less than 2.4e-10 of that sum. *)
Theorem C106_order_ten lm K n : accurate (/ 2 ^ 52) lm -> (n <= 10)%nat -> (2 * length K = (n + 1) * (n + 2))%nat ->
  exists W W64, wavefront K = Ok W /\ wavefront64 lm K = Ok W64 /\
    forall rho theta, 0 <= rho <= 1 -> Rabs theta <= PI -> Rabs (W64 rho theta - W rho theta) <= / 2 ^ 32 * (total_abs K + INR (length K) * tiny).
Proof. exact (W_err_ten lm K n). Qed.
Print Assumptions C106_order_ten.

(** The computation raises an exception where the exact model does, and the same. *)
Theorem C106_exceptions lm : (forall n l er, zernike_U n l = Err er <-> zernike_U64 lm n l = Err er) /\
  forall K er, (8 * Z.of_nat (length K) + 1 < 2 ^ 53)%Z -> (wavefront K = Err er <-> wavefront64 lm K = Err er).
Proof. exact (conj (alike_U lm) (fun K er H => alike_W lm K H er)). Qed.
Print Assumptions C106_exceptions.

(** A library that rounds correctly, order 10, and six coefficients of order 2. *)
Example C106_nonvacuous : accurate (/ 2 ^ 52) correct_libm /\ unit_roundoff <= / 2 ^ 52 /\ loss 10 * / 2 ^ 52 <= / 100 /\ admissible (Z.of_nat 10) (-4) /\
  (2 * length [1; 2; 3; 4; 5; 6] = (2 + 1) * (2 + 2))%nat /\ total_abs [1; 2; 3; 4; 5; 6] = 21.
Proof.
  split; [exact correct_accurate|]. split. { unfold unit_roundoff. apply Rinv_le_contravar; [apply pow_lt; lra|]. apply Rle_pow; [lra|lia]. }
  split. { assert (/ 2 ^ 52 <= / 2 ^ 30). { apply Rinv_le_contravar; [apply pow_lt; lra|]. apply Rle_pow; [lra|lia]. } unfold loss. cbn [INR]. lra. }
  split; [split; [cbn; lia|exists 7%Z; reflexivity]|]. split; [reflexivity|]. unfold total_abs. cbn [fold_right]. rewrite !Rabs_pos_eq by lra. lra.
Qed.

(** C52 in binary64: whole micrometres within the limits come back through transform and
    itransform, and np.around gives the same integer. *)
Theorem C52_binary64 lo hi t z : / 2 ^ 100 <= Rabs t -> (Z.abs z <= 2 ^ 49)%Z -> lo <= IZR z <= hi ->
  exists y, itransform64 lo hi t (transform64 t (IZR z)) = Fin y /\ ZnearestE y = z.
Proof. exact (whole_um lo hi t z). Qed.
Print Assumptions C52_binary64.
Example C52_binary64_nonvacuous : / 2 ^ 100 <= Rabs (-3) /\ (Z.abs 4999 <= 2 ^ 49)%Z /\ -5000 <= 4999 <= 5000.
Proof.
  split; [|split; [lia|lra]]. rewrite Rabs_left by lra. apply Rle_trans with 1; [|lra]. rewrite <- Rinv_1. apply Rinv_le_contravar; [lra|]. apply pow_R1_Rle. lra.
Qed.
