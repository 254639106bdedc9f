(** Vocabulary of the covariance properties: sums of products of matrix entries. *)
From Verif Require Import PyBase Sums.
Open Scope R_scope.

(** An r x c array given as the list of its rows, and its entry (i, j). *)
Definition matrix (r c : nat) (m : list (list R)) : Prop := length m = r /\ Forall (fun row => length row = c) m.
Definition at_ (m : list (list R)) (i j : nat) : R := nth j (nth i m []) 0.

(** No column of the m x n array is a combination of the others. *)
Definition independent_columns (m n : nat) (J : list (list R)) : Prop :=
  forall x, (forall k, (k < m)%nat -> Rsum n (fun j => at_ J k j * x j) = 0) -> forall j, (j < n)%nat -> x j = 0.

(** The sum of the squared residuals per degree of freedom. *)
Definition variance (rs : list R) (n_pars : nat) : R :=
  Rsum (length rs) (fun k => nth k rs 0 ^ 2) / INR (length rs - n_pars).

(** Entry (i, j) of the product of the transposed array with itself. *)
Definition normal_entry (m : nat) (J : list (list R)) (i j : nat) : R := Rsum m (fun k => at_ J k i * at_ J k j).

Definition quadratic (n : nat) (A : list (list R)) (x : nat -> R) : R :=
  Rsum n (fun i => Rsum n (fun j => x i * at_ A i j * x j)).

(** Column j multiplied by s j. *)
Definition scale_columns (s : nat -> R) (J : list (list R)) : list (list R) :=
  map (fun row => map (fun j => nth j row 0 * s j) (seq 0 (length row))) J.
