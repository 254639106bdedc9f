(** Specification: vectors of parameters for which binary64 tells how well they explain the maps of the Effelsberg telescope. *)
From Coq Require Import Reals List.
From Verif Require Import PyBase Num MMath MAperture MTel MRad MCore MFloat MFloat8 SRad SGain SRound SRound3 SRound7.
Import ListNotations.
Open Scope R_scope.

(** [SRound5.predictable] for the Effelsberg telescope with leg angle alpha: coefficients up to some order n for which no step of the computation
    underflows or loses its accuracy (C120); each of the three maps has two values that differ by D at least, and the error that C121 gives for an
    entry of the residual is at most E. *)
Definition predictable_effelsberg (e ef alpha bf wavel : R) (N : nat) (u_data v_data : list (list R)) (d_z : list R) (E : R) (p : list R) : Prop :=
  exists X Y n i_amp c_dB q x0 y0 K l D, p = ([i_amp; c_dB; q; x0; y0] ++ K)%list /\
    (forall z, In z d_z -> reach_effelsberg e alpha X Y n K bf wavel z i_amp c_dB q x0 y0 N /\ field_loss n bf q (turns K z wavel) * e + ef <= l) /\ 0 < D /\
    (forall i, (i < 3)%nat -> exists row s t, model_row illum_parabolic (eff alpha) p u_data v_data d_z wavel N bf i = Ok row /\ In s row /\ In t row /\ D <= t - s) /\
    4 * ((5 * l + INR N ^ 2 * / 2 ^ 46) * (Rabs i_amp * over_samples (50 * bf) N (block_effelsberg alpha)) ^ 2) / D + 10 * unit_roundoff <= E.
