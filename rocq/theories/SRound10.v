(** Specification: the Effelsberg telescope with a gaussian illumination in binary64. *)
From Coq Require Import Reals ZArith List.
From Verif Require Import PyBase Num MMath MAperture MTel MRad MCore MFloat MFloat4 MFloat8 SRad SGain SRound SRound2 SRound3 SRound6 SRound7.
Import ListNotations.
Open Scope R_scope.

(** As [SRound7.reach_effelsberg], for a gaussian illumination whose centre (x0, y0) is in the dish. *)
Definition reach_eff_gauss (e alpha C D : R) (n : nat) (K : list R) (bf wavel d_z i_amp c_dB x0 y0 : R) (N : nat) : Prop :=
  (2 * length K = (n + 1) * (n + 2))%nat /\ (8 * Z.of_nat (length K) + 1 < 2 ^ 53)%Z /\
  (1 <= bf /\ 50 * bf <= 2 ^ 100 /\ INR N <= 2 ^ 40 /\ (2 <= N)%nat /\ (d_z = 0 \/ / 2 ^ 100 <= Rabs d_z) /\ / 2 ^ 100 <= wavel <= 2 ^ 100) /\
  (0 < alpha <= PI / 4 /\ / 1000 <= sin alpha /\ far_corner alpha C D) /\
  (forall i j, (i < N)%nat -> (j < N)%nat -> clear_effelsberg (800 * e) (50 * bf) C D (sample (50 * bf) N i) (sample (50 * bf) N j)) /\
  / 2 ^ 100 <= gauss_peak i_amp c_dB /\ -100 <= c_dB <= 0 /\ x0 ^ 2 + y0 ^ 2 <= 50 ^ 2 /\ gauss_loss n bf c_dB (turns K d_z wavel) * e <= / 1000.

(** [SRound8.predictable_effelsberg] for a gaussian illumination: each of the three maps has two values that differ by D at least, and the error that
    C123 gives for an entry of the residual is at most E.  The third coefficient of the illumination is not used by a gaussian. *)
Definition predictable_eff_gauss (e ef alpha bf wavel : R) (N : nat) (u_data v_data : list (list R)) (d_z : list R) (E : R) (p : list R) : Prop :=
  exists X Y n i_amp c_dB q x0 y0 K l D, p = ([i_amp; c_dB; q; x0; y0] ++ K)%list /\
    (forall z, In z d_z -> reach_eff_gauss e alpha X Y n K bf wavel z i_amp c_dB x0 y0 N /\ gauss_loss n bf c_dB (turns K z wavel) * e + ef <= l) /\ 0 < D /\
    (forall i, (i < 3)%nat -> exists row s t, model_row illum_gauss (eff alpha) p u_data v_data d_z wavel N bf i = Ok row /\ In s row /\ In t row /\ D <= t - s) /\
    4 * ((5 * l + INR N ^ 2 * / 2 ^ 46) * (gauss_peak i_amp c_dB * over_samples (50 * bf) N (block_effelsberg alpha)) ^ 2) / D + 10 * unit_roundoff <= E.
