(** Shared vocabulary of the model: Python exceptions as values, Python
    [range], list indexing, numpy [linspace]/[meshgrid], and finite sums.
    Nothing in this file is specific to pyoof; the definitions model the
    documented behaviour of the Python / numpy operations the code calls. *)
From Coq Require Export Reals List ZArith Lia Lra Bool.
Export ListNotations.
Open Scope R_scope.

(** Exceptions raised by the modelled code (Python exception classes). *)
Inductive exn :=
| TypeError | ValueError | IndexError | AttributeError | KeyError
| LinAlgError | UnboundLocalError | FileNotFoundError | NotADirectoryError | FileExistsError | OSError
| ZeroDivisionError | YAMLError | OverflowError | MaskError.

(** A Python call returns a value or raises. *)
Inductive res (A : Type) : Type :=
| Ok : A -> res A
| Err : exn -> res A.
Arguments Ok {A} _.
Arguments Err {A} _.

Definition bind {A B} (x : res A) (f : A -> res B) : res B :=
  match x with Ok a => f a | Err e => Err e end.

(** Evaluate a list of computations left to right, stop at the first error
    (a Python generator consumed by [sum] or a list comprehension). *)
Fixpoint mapM {A B} (f : A -> res B) (l : list A) : res (list B) :=
  match l with
  | [] => Ok []
  | x :: t => bind (f x) (fun y => bind (mapM f t) (fun ys => Ok (y :: ys)))
  end.

(** Python [range(a, b, s)] for a positive step [s]. *)
Definition range3 (a b s : Z) : list Z :=
  map (fun k => a + s * Z.of_nat k)%Z (seq 0 (Z.to_nat ((b - a + s - 1) / s))).
Definition range2 (a b : Z) : list Z := range3 a b 1.

(** Python indexing [l[i]] for a non-negative index. *)
Definition py_get {A} (l : list A) (i : nat) : res A :=
  match nth_error l i with Some x => Ok x | None => Err IndexError end.

(** Python [l[i] = v] for a non-negative index. *)
Fixpoint set_nth {A} (l : list A) (i : nat) (v : A) : list A :=
  match l, i with
  | [], _ => []
  | _ :: t, O => v :: t
  | x :: t, S j => x :: set_nth t j v
  end.
Definition py_set {A} (l : list A) (i : nat) (v : A) : res (list A) :=
  if Nat.ltb i (length l) then Ok (set_nth l i v) else Err IndexError.

(** Python [sum(...)] of reals, starting at 0, left to right. *)
Definition py_sum (l : list R) : R := fold_left Rplus l 0.

(** [math.factorial]: ValueError on a negative argument. *)
Definition py_factorial (z : Z) : res R :=
  if Z.ltb z 0 then Err ValueError else Ok (INR (fact (Z.to_nat z))).

(** numpy [linspace(a, b, n)] in exact arithmetic (endpoint included; a single
    sample is [a]). *)
Definition linspace (a b : R) (n : nat) : list R :=
  map (fun i => a + INR i * ((b - a) / INR (n - 1))) (seq 0 n).

(** numpy [meshgrid(x, y)] (indexing='xy'): row j, column i is (x[i], y[j]). *)
Definition meshgrid {A B} (x : list A) (y : list B) : list (list (A * B)) :=
  map (fun yj => map (fun xi => (xi, yj)) x) y.

(** Elementwise application on a 2-D array. *)
Definition map2d {A B} (f : A -> B) (g : list (list A)) : list (list B) :=
  map (map f) g.

(** Boolean comparisons of exact reals. *)
Definition Rltb (x y : R) : bool := if Rlt_dec x y then true else false.
Definition Rleb (x y : R) : bool := if Rle_dec x y then true else false.
Definition Reqb (x y : R) : bool := if Req_EM_T x y then true else false.
