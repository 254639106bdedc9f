(** Specification of the rounding errors of the Effelsberg telescope. *)
From Coq Require Import Reals ZArith List.
From Verif Require Import PyBase MAperture MTel MFloat4 MFloat8 SRound SRound2 SRound3 SRad.
Import ListNotations.
Open Scope R_scope.

(** The library functions are within e of the exact values, relative to these: [sin(alpha) ** (-2)] up to a factor 4, the
    tangent up to a factor 2. *)
Definition accurate_slopes (e : R) (mcsc2 mtan : R -> R) (alpha : R) : Prop :=
  Rabs (mcsc2 alpha - / sin alpha ^ 2) <= 4 * e * / sin alpha ^ 2 /\ Rabs (mtan alpha - tan alpha) <= 2 * e * tan alpha.

(** The far corner of the shade of a leg: on the rim, at inclination alpha seen from (0, 1). *)
Definition far_corner (alpha C D : R) : Prop := 0 < C /\ D = 1 + C * tan alpha /\ C ^ 2 + D ^ 2 = 50 ^ 2.

(** The point (x, y) is further than t from every edge of dish, subreflector, legs and shades, relative to the half width B
    of the aperture plane. *)
Definition clear_effelsberg (t B C D x y : R) : Prop :=
  clear t B 50 (13 / 4) 1 20 x y /\
  forall p q, (p = x /\ q = y) \/ (p = y /\ q = x) -> t * B < Rabs (Rabs p - C) /\
    (93 / 4 < Rabs p < C -> t * B < Rabs (Rabs q - (1 + (Rabs p - 93 / 4) * ((D - 1) / (C - 93 / 4))))).

(** The telescope in exact and in binary64 arithmetic. *)
Definition eff (alpha : R) : telgeo := {| block_dist := block_effelsberg alpha; opd_func := opd_effelsberg; tel_pr := 50 |}.
Definition eff64 (mcsc2 mtan : R -> R) (alpha : R) : telgeo := {| block_dist := block_effelsberg64 mcsc2 mtan alpha; opd_func := opd_effelsberg64; tel_pr := 50 |}.

(** A triangular array K of order n, the telescope with leg angle alpha, an illumination (amplitude, taper in dB, its exponent and
    centre) and a grid of N by N points clear of the edges for which the loss of accuracy stays below 1/1000. *)
Definition reach_effelsberg (e alpha C D : R) (n : nat) (K : list R) (bf wavel d_z i_amp c_dB q x0 y0 : R) (N : nat) : Prop :=
  (2 * length K = (n + 1) * (n + 2))%nat /\ (8 * Z.of_nat (length K) + 1 < 2 ^ 53)%Z /\
  (1 <= bf /\ 50 * bf <= 2 ^ 100 /\ INR N <= 2 ^ 40 /\ (2 <= N)%nat /\ (d_z = 0 \/ / 2 ^ 100 <= Rabs d_z) /\ / 2 ^ 100 <= wavel <= 2 ^ 100) /\
  (0 < alpha <= PI / 4 /\ / 1000 <= sin alpha /\ far_corner alpha C D) /\
  (forall i j, (i < N)%nat -> (j < N)%nat -> let x := sample (50 * bf) N i in let y := sample (50 * bf) N j in
    clear_effelsberg (800 * e) (50 * bf) C D x y /\ (block_effelsberg alpha x y <> 0 -> (x - x0) ^ 2 + (y - y0) ^ 2 <= 50 ^ 2 - 100 * e * (50 * bf) ^ 2)) /\
  / 2 ^ 100 <= Rabs i_amp /\ -100 <= c_dB <= 0 /\ 1 <= q /\ field_loss n bf q (turns K d_z wavel) * e <= / 1000.
