(** Specification vocabulary: how well a vector of parameters explains the data, and vectors for which binary64 tells so. *)
From Coq Require Import Reals List.
From Verif Require Import PyBase Num MMath MAperture MTel MRad MCore MFs MOut MFloat MFloat4 MFloat6 SCore SRad SGain SRound SRound3 SRound4 SOut SFit SBest.
Import ListNotations.
Open Scope R_scope.

(** A routine that adds the squares of M numbers with an error of k relative to one more than their sum. *)
Definition accurate_cost (k : R) (M : nat) (cost : list R -> R) : Prop :=
  forall r, length r = M -> Rabs (cost r - sum_sq r) <= k * (sum_sq r + 1).

(** The vector has coefficients up to some order n for which no step of the computation underflows or loses its accuracy (C113); each of its three
    maps has two values that differ by D at least, and the error that C114 gives for an entry of its residual is at most E. *)
Definition predictable (e ef pr sr a L Fp F bf wavel : R) (N : nat) (u_data v_data : list (list R)) (d_z : list R) (E : R) (p : list R) : Prop :=
  exists n i_amp c_dB q x0 y0 K l D, p = ([i_amp; c_dB; q; x0; y0] ++ K)%list /\
    (forall z, In z d_z -> within_reach e n K pr sr a L Fp F bf wavel z i_amp c_dB q x0 y0 N /\ field_loss n bf q (turns K z wavel) * e + ef <= l) /\ 0 < D /\
    (forall i, (i < 3)%nat -> exists row s t, model_row illum_parabolic (manual pr sr a L Fp F) p u_data v_data d_z wavel N bf i = Ok row /\ In s row /\ In t row /\ D <= t - s) /\
    4 * ((5 * l + INR N ^ 2 * / 2 ^ 46) * (Rabs i_amp * over_samples (pr * bf) N (block_manual pr sr a L)) ^ 2) / D + 10 * unit_roundoff <= E.

(** The function minimised at order n (SFit.misfit), in binary64, for a parabolic illumination and a telescope [tel64] in binary64. *)
Definition misfit64 (m : maths) (tel64 : telgeo) (a : fit_args) (c : config) (n : nat) (x : list R) : res (list R) :=
  residual64 m (illum_parabolic64 m) tel64 (cf_fixed c) (cf_excluded c) (coeffs n) x (fa_beam a) (fa_u a) (fa_v a) (fa_d_z a) (fa_wavel a) (fa_resolution a) (fa_box_factor a).
(** Every answer of the optimizer for the orders from m0 on is feasible, and no feasible vector has a smaller cost in binary64, up to the tolerance of
    the optimizer; the residual that is stored is taken without its rounding errors (C114). *)
Definition cheapest_from (m : maths) (cost : list R -> R) (tel64 : telgeo) (orc : oracle) (a : fit_args) (c : config) (m0 : nat) (tol : R) : Prop :=
  forall n start out, (m0 <= n <= fa_order_max a)%nat -> length start = (5 + coeffs n)%nat -> answered orc a c n start out ->
    feasible c n (lo_x out) /\ misfit a c n (lo_x out) = Ok (lo_fun out) /\
    forall x r64 s64, feasible c n x -> misfit64 m tel64 a c n (lo_x out) = Ok r64 -> misfit64 m tel64 a c n x = Ok s64 -> cost r64 <= cost s64 + tol.
