(** Specification of the signal-to-noise ratio of a map. *)
From Coq Require Import Reals List.
From Verif Require Import PyBase Num MMath MOut SMath.
Import ListNotations.
Open Scope R_scope.

(** A map of n0 rows and n1 columns; a pixel may have no value (NaN). *)
Definition pixel_num (x : option R) : num := match x with Some a => Fin a | None => NaN end.
Definition picture (n0 n1 : nat) (f : nat -> nat -> option R) : list (list num) :=
  map (fun j => map (fun i => pixel_num (f j i)) (seq 0 n1)) (seq 0 n0).
(** Its largest value. *)
Definition peak_of (n0 n1 : nat) (f : nat -> nat -> option R) (peak : R) : Prop :=
  (exists j i, (j < n0)%nat /\ (i < n1)%nat /\ f j i = Some peak) /\
  forall j i a, (j < n0)%nat -> (i < n1)%nat -> f j i = Some a -> a <= peak.
(** The values of the pixels (u i, v j) within [radius] of (centre, centre). *)
Definition noise_values (n0 n1 : nat) (f : nat -> nat -> option R) (u v : nat -> R) (centre radius : R) : list R :=
  flat_map (fun j => flat_map (fun i =>
    if Rlt_dec ((u i - centre) ^ 2 + (v j - centre) ^ 2) (radius ^ 2) then match f j i with Some a => [a] | None => [] end else [])
    (seq 0 n1)) (seq 0 n0).

Definition smallest (l : list R) (x : R) : Prop := In x l /\ forall y, In y l -> x <= y.
Definition largest (l : list R) (x : R) : Prop := In x l /\ forall y, In y l -> y <= x.
(** 300 points from a to b. *)
Definition spread (a b : R) (i : nat) : R := a + INR i * (b - a) / 299.

(** The three ratios a fit records: of the first, the second and the third map, noise at
    0.04 degrees within 0.01 degrees, rounded. *)
Definition deg (x : R) : R := x * PI / 180.
Definition ratios (orc : oracle) (a : fit_args) (snrs : list num) : Prop :=
  length snrs = 3%nat /\ forall k, (k < 3)%nat -> exists b u v x, nth_error (fa_beam a) k = Some b /\ nth_error (fa_u a) k = Some u /\ nth_error (fa_v a) k = Some v /\
    snr_scatter (or_griddata orc) b u v (deg (4 / 100)) (deg (1 / 100)) = Ok x /\ nth_error snrs k = Some (or_round2 orc x).
(** Maps that differ in their gains only. *)
Definition amplified (A B : list (list num)) : Prop :=
  length A = length B /\ forall k a b, nth_error A k = Some a -> nth_error B k = Some b -> exists g, 0 < g /\ b = map (nmul (Fin g)) a.
(** Interpolation commutes with a gain. *)
Definition homogeneous (griddata : list R -> list R -> list num -> list R -> list R -> list (list num)) : Prop :=
  forall g, 0 < g -> forall pu pv vals gu gv, griddata pu pv (map (nmul (Fin g)) vals) gu gv = map (map (nmul (Fin g))) (griddata pu pv vals gu gv).
