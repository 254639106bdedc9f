(** Property theorems C23-C26: pyoof.telgeometry. *)
From Verif Require Import PyBase PyLib Num MTel STel PTel.
Open Scope R_scope.

(** C23. *)
Theorem C23_exact_mask pr sr a L x y :
  (block_manual pr sr a L x y = 0 \/ block_manual pr sr a L x y = 1) /\
  (block_manual pr sr a L x y = 1 <-> annulus pr sr x y /\ ~ legs a (sr + L) x y).
Proof. exact (block_manual_iff pr sr a L x y). Qed.
Print Assumptions C23_exact_mask.
Theorem C23_symmetric pr sr a L x y :
  block_manual pr sr a L (- x) y = block_manual pr sr a L x y /\
  block_manual pr sr a L x (- y) = block_manual pr sr a L x y /\
  block_manual pr sr a L y x = block_manual pr sr a L x y.
Proof. exact (block_manual_sym pr sr a L x y). Qed.
Print Assumptions C23_symmetric.
Example C23_nonvacuous : annulus 50 3 20 30 /\ ~ legs 1 23 20 30 /\ legs 1 23 10 0.
Proof.
  unfold annulus, legs. rewrite !Rabs_right by lra. split; [lra|]. split; [intros [H|H]; lra|]. left. lra.
Qed.

(** C24. a = 0 removes the legs ... *)
Theorem C24_no_legs pr sr L x y : block_manual pr sr 0 L x y = 1 <-> annulus pr sr x y.
Proof. exact (block_a0 pr sr L x y). Qed.
Print Assumptions C24_no_legs.
(** ... L = 0 does not: the part of the cross of half-length sr outside the
    sub-reflector stays blocked ... *)
Theorem C24_L_zero pr sr a x y : block_manual pr sr a 0 x y = 1 <-> annulus pr sr x y /\ ~ legs a sr x y.
Proof. exact (block_L0 pr sr a x y). Qed.
Print Assumptions C24_L_zero.
Theorem C24_L_zero_refuted : exists pr sr a x y, 0 < sr < pr /\ 0 < a < sr /\ annulus pr sr x y /\ block_manual pr sr a 0 x y = 0.
Proof. exact block_L0_refuted. Qed.
Print Assumptions C24_L_zero_refuted.
(** ... and sr = 0 leaves the centre blocked, and only the centre. *)
Theorem C24_sr_zero pr L x y : block_manual pr 0 0 L x y = 1 <-> x ^ 2 + y ^ 2 < pr ^ 2 /\ ~ (x = 0 /\ y = 0).
Proof. exact (block_sr0_iff pr L x y). Qed.
Print Assumptions C24_sr_zero.
Theorem C24_sr_zero_refuted pr a L : block_manual pr 0 a L 0 0 = 0.
Proof. exact (block_sr0 pr a L). Qed.
Print Assumptions C24_sr_zero_refuted.

(** C25. All angles, NaN intermediate values included. *)
Theorem C25_two_valued alpha x y : block_effelsberg alpha x y = 0 \/ block_effelsberg alpha x y = 1.
Proof. exact (block_effelsberg_01 alpha x y). Qed.
Print Assumptions C25_two_valued.
Theorem C25_symmetric alpha x y :
  block_effelsberg alpha (- x) y = block_effelsberg alpha x y /\
  block_effelsberg alpha x (- y) = block_effelsberg alpha x y /\
  block_effelsberg alpha y x = block_effelsberg alpha x y.
Proof. exact (block_effelsberg_sym alpha x y). Qed.
Print Assumptions C25_symmetric.
Theorem C25_submask alpha x y : block_manual 50 (13 / 4) 1 20 x y = 0 -> block_effelsberg alpha x y = 0.
Proof. exact (block_effelsberg_sub alpha x y). Qed.
Print Assumptions C25_submask.
Theorem C25_no_shade alpha x y : sin alpha = 0 -> block_effelsberg alpha x y = block_manual 50 (13 / 4) 1 20 x y.
Proof. exact (block_no_shade alpha x y). Qed.
Print Assumptions C25_no_shade.
(** Exact shape: there is one corner (C, D) on the rim of the dish and on the ray
    from (0, 1) at inclination alpha, and the mask is the annulus minus the legs
    and the four shades with that corner. *)
Theorem C25_exact_mask alpha : 0 < alpha < PI / 2 -> exists C D, 0 < C /\ D = 1 + C * tan alpha /\ C ^ 2 + D ^ 2 = 50 ^ 2 /\
  forall x y, block_effelsberg alpha x y = 1 <-> annulus 50 (13 / 4) x y /\ ~ legs 1 (93 / 4) x y /\ ~ shades C D x y.
Proof. exact (block_effelsberg_exact alpha). Qed.
Print Assumptions C25_exact_mask.
(** The line x = 23.25 between leg and shade is not blocked. *)
Theorem C25_gap alpha y : 0 < alpha <= PI / 4 -> Rabs y < 1 -> block_effelsberg alpha (93 / 4) y = 1.
Proof. exact (block_gap alpha y). Qed.
Print Assumptions C25_gap.
Example C25_nonvacuous : 0 < PI / 18 < PI / 2 /\ 0 < PI / 18 <= PI / 4 /\ sin 0 = 0 /\ block_manual 50 (13 / 4) 1 20 0 0 = 0.
Proof.
  pose proof PI_RGT_0. repeat match goal with |- _ /\ _ => split end; try lra; [apply sin_0|].
  destruct (block_manual_iff 50 (13 / 4) 1 20 0 0) as [[E|E] I]; [exact E|]. exfalso. apply (proj1 I) in E as [A _]. unfold annulus in A. lra.
Qed.

(** C26. *)
Theorem C26_opd Fp F : 0 < Fp -> 0 < F -> exists f : R -> R,
  (forall x y d_z, opd_manual Fp F x y d_z = d_z * f (x ^ 2 + y ^ 2)) /\ f 0 = 2 /\
  (forall s s', 0 <= s < s' -> f s' < f s) /\ (forall s, 0 <= s -> -2 < f s <= 2) /\ f (4 * Fp * F) = 0.
Proof. exact (opd_api Fp F). Qed.
Print Assumptions C26_opd.
Theorem C26_closed_form Fp F x y d_z : 0 < Fp -> 0 < F ->
  opd_manual Fp F x y d_z = d_z * (2 * (1 - (x ^ 2 + y ^ 2) ^ 2 / (4 * Fp * F) ^ 2) / ((1 + (x ^ 2 + y ^ 2) / (2 * Fp) ^ 2) * (1 + (x ^ 2 + y ^ 2) / (2 * F) ^ 2))).
Proof. exact (opd_closed Fp F x y d_z). Qed.
Print Assumptions C26_closed_form.
Theorem C26_effelsberg x y d_z : opd_effelsberg x y d_z = opd_manual 30 (38739435 / 100000) x y d_z.
Proof. exact (opd_effelsberg_manual x y d_z). Qed.
Print Assumptions C26_effelsberg.
Example C26_nonvacuous : 0 < 30 /\ 0 < 38739435 / 100000 /\ opd_manual 30 30 60 0 1 = 0.
Proof.
  split; [lra|]. split; [lra|]. unfold opd_manual. cbv zeta. replace (60 ^ 2 + 0 ^ 2) with (60 * 60) by ring. rewrite sqrt_square by lra. field.
Qed.
