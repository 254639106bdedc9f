(** Specification vocabulary: fits with the covariances that co_matrices computes. *)
From Coq Require Import List ZArith Ranalysis1.
From Verif Require Import PyBase Sums Num MMath MAperture MCore MFs MOut MCoMat SOut SFit SMat SBest.
Import ListNotations.
Open Scope R_scope.
Open Scope list_scope.

(** co_matrices is the one of pyoof.math_functions. *)
Definition own_covariances (orc : oracle) : Prop := forall rs J k, or_comat orc rs J k = co_matrices rs J k.
(** One row of the Jacobian per residual, one column per fitted parameter, and more
    residuals than fitted parameters. *)
Definition overdetermined (out : lsq_out) : Prop :=
  matrix (length (lo_fun out)) (length (lo_x out)) (lo_jac out) /\ (length (lo_x out) < length (lo_fun out))%nat.

(** f with z for the parameter j of x; component k of a residual. *)
Definition along (f : list R -> res (list R)) (x : list R) (j : nat) (z : R) : res (list R) := f (firstn j x ++ z :: skipn (S j) x).
Definition component (r : res (list R)) (k : nat) : R := match r with Ok l => nth k l 0 | Err _ => 0 end.
(** J holds the derivatives of f at x, or difference quotients with steps h that do not
    lead to 0, as least_squares computes them. *)
Definition derivatives (f : list R -> res (list R)) (x : list R) (J : list (list R)) : Prop :=
  forall k j, (k < length J)%nat -> (j < length x)%nat -> derivable_pt_lim (fun z => component (along f x j z) k) (nth j x 0) (at_ J k j).
Definition differences (f : list R -> res (list R)) (x : list R) (J : list (list R)) : Prop :=
  exists h : nat -> R, (forall j, h j <> 0 /\ nth j x 0 + h j <> 0) /\
  forall k j, (k < length J)%nat -> (j < length x)%nat -> at_ J k j = (component (along f x j (nth j x 0 + h j)) k - component (f x) k) / h j.

(** The amplitude of the illumination is fitted, and the bounds keep the taper order q
    positive. *)
Definition amplitude_fitted (c : config) : Prop :=
  ~ In 0%Z (cf_excluded c) /\ (In 2%Z (cf_excluded c) -> 0 < nth 2 (cf_fixed c) 0) /\ (~ In 2%Z (cf_excluded c) -> 0 < nth 2 (cf_bound_min c) 0).
(** What least_squares promises: an answer within the bounds, its residual and its
    Jacobian, for the orders asked. *)
Definition least_squares_answers (orc : oracle) (a : fit_args) (c : config) : Prop :=
  forall n start out, (1 <= n <= fa_order_max a)%nat -> length start = (5 + coeffs n)%nat -> answered orc a c n start out ->
    feasible c n (lo_x out) /\ misfit a c n (lo_x out) = Ok (lo_fun out) /\ overdetermined out /\
    (derivatives (misfit a c n) (lo_x out) (lo_jac out) \/ differences (misfit a c n) (lo_x out) (lo_jac out)).
(** No other file than before. *)
Definition no_new_file (s s' : fs) : Prop := forall q d, s' q = Some (File d) -> s q = Some (File d).
(** Every question of this fit is answered, with a Jacobian of independent columns and a
    residual that is not zero throughout; the figures can be drawn. *)
Definition regular_answers (orc : oracle) (a : fit_args) (c : config) : Prop :=
  (forall n x0 lo hi, (1 <= n <= fa_order_max a)%nat -> (length x0 + length (cf_excluded c) = 5 + coeffs n)%nat -> length lo = length x0 -> length hi = length x0 ->
     exists out, or_lsq orc (misfit a c n) x0 lo hi = Ok out /\ length (lo_x out) = length x0 /\ (length (lo_fun out) mod 3 = 0)%nat /\ overdetermined out /\
       independent_columns (length (lo_fun out)) (length (lo_x out)) (lo_jac out) /\ exists t, In t (lo_fun out) /\ t <> 0) /\
  (fa_make_plots a = true -> forall n, (1 <= n <= fa_order_max a)%nat -> or_draw orc n = Ok tt).
(** cov and cor are the covariances and correlations that belong to the Jacobian J (k
    parameters) and the residual rs: the inverse of the normal matrix times the variance,
    and its normalised form. *)
Definition covariance_of (J : list (list R)) (rs : list R) (k : nat) (cov cor : list (list R)) : Prop :=
  matrix k k cov /\ matrix k k cor /\
  (forall i j, (i < k)%nat -> (j < k)%nat -> Rsum k (fun l => normal_entry (length rs) J i l * at_ cov l j) = if Nat.eqb i j then variance rs k else 0) /\
  (forall i j, (i < k)%nat -> (j < k)%nat -> at_ cov i j = at_ cov j i /\ at_ cor i j = at_ cor j i) /\
  (forall i, (i < k)%nat -> 0 < at_ cov i i) /\
  (forall i j, (i < k)%nat -> (j < k)%nat -> at_ cor i j = at_ cov i j / sqrt (at_ cov i i * at_ cov j j)) /\
  (forall i, (i < k)%nat -> at_ cor i i = 1) /\ (forall i j, (i < k)%nat -> (j < k)%nat -> i <> j -> Rabs (at_ cor i j) < 1).
