(** Model of math_functions.rms, aperture.e_rs, numpy's linspace and fftfreq as
    the package uses them, in IEEE binary64: every numpy operation is rounded.
    Simplification: no overflow. *)
From Coq Require Import List ZArith.
From Verif Require Import PyBase Num SFloat.
Import ListNotations.
Open Scope R_scope.

(** numpy does not fix the order in which np.sum adds (blocks, several accumulators, vector
    instructions): a sum is a tree of binary additions. *)
Inductive adding := One (x : R) | Plus (a b : adding).
Fixpoint add64 (t : adding) : R := match t with One x => x | Plus a b => fl (add64 a + add64 b) end.

(** The same additions of other numbers. *)
Fixpoint each64 (f : R -> R) (t : adding) : adding := match t with One x => One (f x) | Plus a b => Plus (each64 f a) (each64 f b) end.

(** np.square of one entry. *)
Definition square64 (x : R) : R := fl (x * x).

(** math_functions.py:153, :155 [np.sqrt(np.nansum(np.square(v)) / v.size)]: [t] says in which
    order the squares are added, [n] is v.size. *)
Definition rms64 (t : adding) (n : nat) : R := fl (sqrt (fl (add64 (each64 square64 t) / fl (INR n)))).

(** aperture.py:74-77 [np.exp(-rms_rad ** 2)]; [sq] and [ex] are the scalar power 2 and np.exp of the numpy build. *)
Definition e_rs64 (sq ex : R -> R) (t : adding) (n : nat) : R := ex (- sq (rms64 t n)).

(** numpy.linspace(a, b, n): [arange(0, n) * step + a] with [step = (b - a) / (n - 1)], the last value set to b. *)
Definition linspace64 (a b : R) (n i : nat) : R :=
  if Nat.eqb i (n - 1) then b else fl (fl (INR i * fl (fl (b - a) / INR (n - 1))) + a).

(** math_functions.py:147-151 (r = 1), aperture.py:335-344 (r = pr): the pixel (i, j) of an n by n map is outside the dish of radius r. *)
Definition outside64 (r : R) (n i j : nat) : bool :=
  let x := linspace64 (- r) r n i in
  let y := linspace64 (- r) r n j in
  Rltb (square64 r) (fl (square64 x + square64 y)).

(** aperture.py:515-523 [x[1] - x[0]] of the grid of half width B. *)
Definition dx64 (B : R) (n : nat) : R := fl (linspace64 (- B) B n 1 - linspace64 (- B) B n 0).

(** numpy.fft.fftfreq(n, d): the integers of the frequencies times [val = 1.0 / (n * d)]; the entry of the integer k. *)
Definition freq64 (n : nat) (d : R) (k : Z) : R := fl (IZR k * fl (1 / fl (INR n * d))).

(** aperture.py:542-554: the entry of the integer k in the axis of the radiation pattern (of u and of v). *)
Definition axis64 (B wavel : R) (n : nat) (k : Z) : R := fl (freq64 n (dx64 B n) k * wavel).

(** aperture.py:515-517, 542-554: entry i of both axes that radiation_pattern returns (after fftshift entry n // 2 is the integer 0). *)
Definition u_axis64 (pr box_factor wavel : R) (n i : nat) : R := axis64 (fl (pr * box_factor)) wavel n (Z.of_nat i - Z.of_nat (n / 2)).

(** math_functions.py:147-152: the entries that rms(phase, circ=True) takes, of the n by n map with entry [a j i] in row j and column i. *)
Definition inside64 (n : nat) (a : nat -> nat -> R) : list R :=
  concat (map (fun j => map (fun i => a j i) (filter (fun i => negb (outside64 1 n i j)) (seq 0 n))) (seq 0 n)).
