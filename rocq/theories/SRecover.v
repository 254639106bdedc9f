(** Specification vocabulary: parameter vectors the configuration allows, and fits of
    simulated observations. *)
From Coq Require Import List ZArith.
From Verif Require Import PyBase Num MMath MAperture MCore MFs MOut MAux MSim SOut SFit SBest.
Import ListNotations.
Open Scope R_scope.
Open Scope list_scope.

(** The complete vector p of order n has its excluded parameters at their fixed values and
    the others within their bounds (-5 and 5 for the coefficients that are not listed). *)
Definition allowed (c : config) (n : nat) (p : list R) : Prop :=
  length p = (5 + coeffs n)%nat /\
  forall i, (i < 5 + coeffs n)%nat ->
    (In (Z.of_nat i) (cf_excluded c) -> nth i p 0 = nth i (cf_fixed c) 0) /\
    (~ In (Z.of_nat i) (cf_excluded c) -> nth i (cf_bound_min c) (-5) <= nth i p 0 <= nth i (cf_bound_max c) 5).
(** r is the residual of the complete vector p on the maps of the fit. *)
Definition explained (a : fit_args) (p r : list R) : Prop :=
  residual_true (fa_illum a) (fa_tel a) p (fa_beam a) (fa_u a) (fa_v a) (fa_d_z a) (fa_wavel a) (fa_resolution a) (fa_box_factor a) = Ok r.
(** Every parameter differs by at most d. *)
Definition near (d : R) (q p : list R) : Prop := Forall2 (fun x y => Rabs (x - y) <= d) q p.
(** The allowed vectors of order n whose residual has a sum of squares of at most e are
    all near p.  With e = d = 0: no other vector explains the maps. *)
Definition determined (a : fit_args) (c : config) (n : nat) (p : list R) (e d : R) : Prop :=
  forall q r, allowed c n q -> explained a q r -> sum_sq r <= e -> near d q p.
(** Every answer of the optimizer for the orders from m on is a best one, up to its
    tolerance e. *)
Definition best_from (orc : oracle) (a : fit_args) (c : config) (m : nat) (e : R) : Prop :=
  forall n start out, (m <= n <= fa_order_max a)%nat -> length start = (5 + coeffs n)%nat -> answered orc a c n start out -> SBest.optimal a c n e out.

(** The maps of the observation are given to fit_zpoly ... *)
Definition observation_of (ob : observation) (a : fit_args) : Prop :=
  fa_beam a = ob_beam ob /\ map (map Fin) (fa_u a) = ob_u ob /\ map (map Fin) (fa_v a) = ob_v ob /\ fa_d_z a = ob_d_z ob /\ fa_wavel a = ob_wavel ob.
(** ... with the telescope and the grid of the simulation. *)
Definition same_model (sa : sim_args) (a : fit_args) : Prop :=
  fa_illum a = si_illum sa /\ fa_tel a = si_tel sa /\ fa_resolution a = si_resolution sa /\ fa_box_factor a = si_box_factor sa.
