(** Model of pyoof/math_functions.py, co_matrices, with the numpy.linalg
    operations it calls.  Arrays are lists of rows of exact reals. *)
From Verif Require Import PyBase MMath.
Open Scope R_scope.

(** Entry (i, j) of an array; an array from its entries. *)
Definition entries (m : list (list R)) : nat -> nat -> R := fun i j => nth j (nth i m []) 0.
Definition array (r c : nat) (A : nat -> nat -> R) : list (list R) :=
  map (fun i => map (fun j => A i j) (seq 0 c)) (seq 0 r).

(** numpy.dot of two 2-D arrays, of the transposed array with itself, of two vectors. *)
Definition mdot (a b : list (list R)) : list (list R) :=
  array (length a) (ncols b) (fun i j => py_sum (map (fun k => entries a i k * entries b k j) (seq 0 (length b)))).
Definition gram (a : list (list R)) : list (list R) :=
  array (ncols a) (ncols a) (fun i j => py_sum (map (fun k => entries a k i * entries a k j) (seq 0 (length a)))).
Definition vdot (a b : list R) : R := py_sum (map2 Rmult a b).

(** Gauss-Jordan elimination: column k of [M] is cleared, the same row
    operations are applied to [X].  LAPACK takes the pivot of largest modulus;
    the inverse does not depend on the choice in exact arithmetic, the first
    non-zero one is taken here. *)
Definition find_pivot (n k : nat) (M : nat -> nat -> R) : option nat :=
  find (fun i => negb (Reqb (M i k) 0)) (seq k (n - k)).
Definition swap_rows (i k : nat) (X : nat -> nat -> R) : nat -> nat -> R :=
  fun r c => X (if Nat.eqb r i then k else if Nat.eqb r k then i else r) c.
Definition clear_column (k : nat) (M X : nat -> nat -> R) : nat -> nat -> R :=
  fun r c => if Nat.eqb r k then X k c / M k k else X r c - M r k * (X k c / M k k).
Definition eliminate (n k : nat) (MX : (nat -> nat -> R) * (nat -> nat -> R)) : option ((nat -> nat -> R) * (nat -> nat -> R)) :=
  match find_pivot n k (fst MX) with
  | None => None
  | Some i => let M := swap_rows i k (fst MX) in let X := swap_rows i k (snd MX) in
              Some (clear_column k M M, clear_column k M X)
  end.
Fixpoint eliminate_all (n : nat) (ks : list nat) (MX : (nat -> nat -> R) * (nat -> nat -> R)) : option ((nat -> nat -> R) * (nat -> nat -> R)) :=
  match ks with [] => Some MX | k :: t => match eliminate n k MX with None => None | Some MX' => eliminate_all n t MX' end end.
(** numpy.linalg.inv: LinAlgError for a singular array and for one that is not square. *)
Definition inv (a : list (list R)) : res (list (list R)) :=
  let n := length a in
  if forallb (fun row => Nat.eqb (length row) n) a then
    match eliminate_all n (seq 0 n) (entries a, fun i j => if Nat.eqb i j then 1 else 0) with
    | Some (_, X) => Ok (array n n X)
    | None => Err LinAlgError
    end
  else Err LinAlgError.

(** math_functions.py:66-102 [co_matrices(res, jac, n_pars)].  Without degrees of
    freedom ([res.size <= n_pars]) numpy divides by zero or takes roots of
    negative numbers, and fills the result with NaN and infinities; that case is
    outside this model and marked by ValueError. *)
Definition co_matrices (rs : list R) (jac : list (list R)) (n_pars : nat) : res (list (list R) * list (list R)) :=
  let m := length rs in
  if Nat.leb m n_pars then Err ValueError else
  let p := INR (m - n_pars) in
  bind (inv (gram jac)) (fun B =>
  let cov := map2d (fun x => vdot rs rs / p * x) B in
  let n := length cov in
  let sigmas := array n n (fun i j => if Nat.eqb i j then sqrt (entries cov i i) else 0) in
  bind (inv sigmas) (fun D =>
  Ok (cov, mdot (mdot D cov) D))).
