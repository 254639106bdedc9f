(** Specification of the Zernike circle polynomials, independent of the model:
    the generating formula printed in the docstring (Born & Wolf). *)
From Coq Require Import Reals ZArith.
From Coquelicot Require Import Coquelicot.
From Verif Require Import PyBase MZernike.
Open Scope R_scope.

(** zernike.R docstring / docs/zernike/index.rst:25:
    R = 1/(((n-m)/2)! rho^m) * (d/d(rho^2))^((n-m)/2) { (rho^2)^((n+m)/2) (rho^2-1)^((n-m)/2) }. *)
Definition rodrigues (n m : nat) (rho : R) : R :=
  / (INR (fact ((n - m) / 2)) * rho ^ m)
  * Derive_n (fun t => t ^ ((n + m) / 2) * (t - 1) ^ ((n - m) / 2)) ((n - m) / 2) (rho ^ 2).

(** Admissible index pairs: 0 <= |l| <= n with n - |l| even. *)
Definition admissible (n l : Z) : Prop :=
  (Z.abs l <= n)%Z /\ Z.Even (n - l).

(** The integral over the unit disk, in polar coordinates. *)
Definition disk_integral (f : R -> R -> R) : R :=
  RInt (fun rho => RInt (fun theta => f rho theta * rho) 0 (2 * PI)) 0 1.

(** The iterated Riemann integral of F over the unit disk exists and is v. *)
Definition has_disk_integral (F : R -> R -> R) (v : R) : Prop :=
  exists I, (forall rho, is_RInt (fun theta => F rho theta * rho) 0 (2 * PI) (I rho)) /\ is_RInt I 0 1 v.

(** The radial polynomial including its value at the centre. *)
Definition radial (n m : nat) (rho : R) : R :=
  if Req_EM_T rho 0 then (if Nat.eqb m 0 then (-1) ^ (n / 2) else 0) else rodrigues n m rho.

(** Circle polynomial U^l_n (docs/zernike/index.rst:30-31). *)
Definition circle (n : nat) (l : Z) (rho theta : R) : R :=
  radial n (Z.to_nat (Z.abs l)) rho
  * (if Z.ltb l 0 then sin (IZR (Z.abs l) * theta) else cos (IZR (Z.abs l) * theta)).

(** Sum of f 0 ... f n. *)
Fixpoint sum_upto (n : nat) (f : nat -> R) : R :=
  match n with O => f O | S k => sum_upto k f + f n end.

(** W = sum over 0 <= i <= n and l = -i, -i+2, ..., i of K(i,l) U^l_i
    (docs/zernike/index.rst:63). *)
Definition zernike_series (n : nat) (K : nat -> Z -> R) (rho theta : R) : R :=
  sum_upto n (fun i => sum_upto i (fun k =>
    let l := (2 * Z.of_nat k - Z.of_nat i)%Z in K i l * circle i l rho theta)).

(** Position of K(n,l) in a coefficient array. *)
Definition coeff_pos (n : nat) (l : Z) : nat := Z.to_nat ((Z.of_nat n * (Z.of_nat n + 2) + l) / 2).

(** Coefficients left after the piston / tilt switches of [phase]. *)
Definition kept (piston tilt : bool) (c : nat -> Z -> R) (i : nat) (l : Z) : R :=
  match i with
  | O => if piston then c i l else 0
  | S O => if tilt then c i l else 0
  | _ => c i l
  end.

(** A coefficient array read as K(i, l). *)
Definition coeff_of (K : list R) (i : nat) (l : Z) : R := List.nth (coeff_pos i l) K 0.

(** The indices accepted by zernike.U: instances of int, that is int and bool (numpy
    integers are not), and the integer they stand for. *)
Definition is_int (v : pyidx) : Prop := match v with PyInt _ | PyBool _ => True | _ => False end.
Definition int_val (v : pyidx) : Z := (match v with PyInt z => z | PyBool true => 1 | PyBool false => 0 | _ => 0 end)%Z.
