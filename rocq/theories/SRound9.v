(** Specification: how well a vector of parameters explains the maps of a telescope with a gaussian illumination, in binary64. *)
From Coq Require Import Reals List.
From Verif Require Import PyBase Num MMath MAperture MTel MRad MCore MFs MOut MFloat MFloat4 MFloat6 SRad SGain SRound SRound3 SRound6 SOut SFit SBest.
Import ListNotations.
Open Scope R_scope.

(** [SRound5.predictable] for a gaussian illumination: coefficients up to some order n for which no step of the computation underflows or loses its
    accuracy (C119); each of the three maps has two values that differ by D at least, and the error that C122 gives for an entry of the residual is at
    most E.  The third coefficient of the illumination is not used by a gaussian. *)
Definition predictable_gauss (e ef pr sr a L Fp F bf wavel : R) (N : nat) (u_data v_data : list (list R)) (d_z : list R) (E : R) (p : list R) : Prop :=
  exists n i_amp c_dB q x0 y0 K l D, p = ([i_amp; c_dB; q; x0; y0] ++ K)%list /\
    (forall z, In z d_z -> gauss_reach e n K pr sr a L Fp F bf wavel z i_amp c_dB x0 y0 N /\ gauss_loss n bf c_dB (turns K z wavel) * e + ef <= l) /\ 0 < D /\
    (forall i, (i < 3)%nat -> exists row s t, model_row illum_gauss (manual pr sr a L Fp F) p u_data v_data d_z wavel N bf i = Ok row /\ In s row /\ In t row /\ D <= t - s) /\
    4 * ((5 * l + INR N ^ 2 * / 2 ^ 46) * (gauss_peak i_amp c_dB * over_samples (pr * bf) N (block_manual pr sr a L)) ^ 2) / D + 10 * unit_roundoff <= E.

(** [SRound5.misfit64] and [SRound5.cheapest_from] for an illumination [illum64] and a telescope [tel64] in binary64. *)
Definition misfit_by (m : maths) (illum64 : list R -> R -> res (R -> R -> R)) (tel64 : telgeo) (a : fit_args) (c : config) (n : nat) (x : list R) : res (list R) :=
  residual64 m illum64 tel64 (cf_fixed c) (cf_excluded c) (coeffs n) x (fa_beam a) (fa_u a) (fa_v a) (fa_d_z a) (fa_wavel a) (fa_resolution a) (fa_box_factor a).
Definition cheapest_by (m : maths) (illum64 : list R -> R -> res (R -> R -> R)) (cost : list R -> R) (tel64 : telgeo) (orc : oracle) (a : fit_args) (c : config) (m0 : nat) (tol : R) : Prop :=
  forall n start out, (m0 <= n <= fa_order_max a)%nat -> length start = (5 + coeffs n)%nat -> answered orc a c n start out ->
    feasible c n (lo_x out) /\ misfit a c n (lo_x out) = Ok (lo_fun out) /\
    forall x r64 s64, feasible c n x -> misfit_by m illum64 tel64 a c n (lo_x out) = Ok r64 -> misfit_by m illum64 tel64 a c n x = Ok s64 -> cost r64 <= cost s64 + tol.
