(** Specification vocabulary: how well a fit explains the data. *)
From Coq Require Import List.
From Verif Require Import PyBase Num MMath MAperture MCore MFs MOut SOut SFit.
Import ListNotations.
Open Scope R_scope.
Open Scope list_scope.

Definition sum_sq (l : list R) : R := fold_right (fun x t => x * x + t) 0 l.

(** x is a vector of the fitted parameters of order n, within the bounds of the
    configuration (-5 and 5 for the coefficients it does not list). *)
Definition feasible (c : config) (n : nat) (x : list R) : Prop :=
  exists lo hi, np_delete (cf_bound_min c ++ repeat (-5) (coeffs n - 3)) (cf_excluded c) = Ok lo /\
    np_delete (cf_bound_max c ++ repeat 5 (coeffs n - 3)) (cf_excluded c) = Ok hi /\ within Rle x lo hi.
(** The answer is feasible, comes with its own residual, and no feasible vector has a
    sum of squares that is smaller by more than the tolerance e of the optimizer. *)
Definition optimal (a : fit_args) (c : config) (n : nat) (e : R) (out : lsq_out) : Prop :=
  feasible c n (lo_x out) /\ misfit a c n (lo_x out) = Ok (lo_fun out) /\
  forall x r, feasible c n x -> misfit a c n x = Ok r -> sum_sq (lo_fun out) <= sum_sq r + e.
(** From a feasible starting point: the answer is feasible, comes with its own residual,
    and is at least as good as the starting point. *)
Definition descended (a : fit_args) (c : config) (n : nat) (start : list R) (out : lsq_out) : Prop :=
  forall x0, np_delete start (cf_excluded c) = Ok x0 -> feasible c n x0 ->
  feasible c n (lo_x out) /\ misfit a c n (lo_x out) = Ok (lo_fun out) /\
  forall r, misfit a c n x0 = Ok r -> sum_sq (lo_fun out) <= sum_sq r.
