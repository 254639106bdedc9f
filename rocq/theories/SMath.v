(** Specification vocabulary for maps: finite values, columns, square arrays,
    the inscribed disk, mean and standard deviation. *)
From Verif Require Import PyBase Num.
Open Scope R_scope.

(** Not NaN, not infinite. *)
Definition finite (p : num) : Prop := match p with Fin _ => True | _ => False end.

(** g * p + o. *)
Definition affine (g o : R) (p : num) : num := nadd (nmul (Fin g) p) (Fin o).

(** Column j of a 2-D array. *)
Definition col {A} (d : A) (j : nat) (P : list (list A)) : list A := map (fun row => nth j row d) P.

(** Every row has m entries; n x n arrays. *)
Definition rect {A} (m : nat) (P : list (list A)) : Prop := forall row, In row P -> length row = m.
Definition square {A} (n : nat) (P : list (list A)) : Prop := length P = n /\ rect n P.

(** The n x n array with entry a j i in row j, column i. *)
Definition grid {A} (n : nat) (a : nat -> nat -> A) : list (list A) := map (fun j => map (fun i => a j i) (seq 0 n)) (seq 0 n).

(** The finite values of a list; no infinities. *)
Definition vals (l : list num) : list R := flat_map (fun p => match p with Fin x => [x] | _ => [] end) l.
Definition no_inf (l : list num) : Prop := forall p, In p l -> p <> PInf /\ p <> NInf.

(** Pixel (i, j) of an n x n map lies in the disk inscribed in [-1,1]^2. *)
Definition in_disk (n i j : nat) : Prop :=
  (nth i (linspace (-1) 1 n) 0) ^ 2 + (nth j (linspace (-1) 1 n) 0) ^ 2 <= 1.
Definition diskb n i j : bool := if Rle_dec ((nth i (linspace (-1) 1 n) 0) ^ 2 + (nth j (linspace (-1) 1 n) 0) ^ 2) 1 then true else false.

(** Mean and (population) standard deviation. *)
Definition meanR (l : list R) : R := py_sum l / INR (length l).
Definition stdR (l : list R) : R := sqrt (py_sum (map (fun x => (x - meanR l) ^ 2) l) / INR (length l)).

(** Values of the pixels (u i, v j) within [radius] of (centre, centre). *)
Definition noise_pixels (n0 n1 : nat) (a : nat -> nat -> R) (u v : nat -> R) (centre radius : R) : list R :=
  concat (map (fun j => map (fun i => a j i) (filter (fun i => Rltb ((u i - centre) ^ 2 + (v j - centre) ^ 2) (radius ^ 2)) (seq 0 n1))) (seq 0 n0)).
