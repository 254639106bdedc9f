(** Property theorems C01-C07: pyoof.zernike. *)
From Verif Require Import PyBase PyLib MZernike SZernike PZernike PRodrigues PEnum PSym PZern2 PParseval.
Open Scope R_scope.

(** C01. The sum computed by [R(n, m, rho)] is the documented Rodrigues formula. *)
Theorem C01_radial_is_rodrigues (n m : nat) : (m <= n)%nat -> Nat.even (n - m) = true ->
  exists g, zernike_R (Z.of_nat n) (Z.of_nat m) = Ok g /\
    forall rho, rho <> 0 -> g rho = rodrigues n m rho.
Proof. exact (zernike_R_rodrigues n m). Qed.
Print Assumptions C01_radial_is_rodrigues.
Example C01_nonvacuous : (2 <= 4)%nat /\ Nat.even (4 - 2) = true.
Proof. split; [lia|reflexivity]. Qed.
Example C01_literal : exists g, zernike_R 4 2 = Ok g /\ g (1 / 2) = - (1 / 2).
Proof.
  destruct (zernike_R_nat 4 2 ltac:(lia)) as (g & E & H). exists g. split; [exact E|]. rewrite H.
  unfold Rsumform. cbn. field.
Qed.

(** C02. Values at the rim and at the centre. *)
Theorem C02_rim_and_centre (n m : nat) : (m <= n)%nat -> Nat.even (n - m) = true ->
  exists g, zernike_R (Z.of_nat n) (Z.of_nat m) = Ok g /\
    g 1 = 1 /\ g 0 = (if Nat.eqb m 0 then (-1) ^ (n / 2) else 0).
Proof. exact (R_rim_centre n m). Qed.
Print Assumptions C02_rim_and_centre.
Example C02_nonvacuous : (0 <= 6)%nat /\ Nat.even (6 - 0) = true /\ (-1) ^ (6 / 2) = -1.
Proof. repeat split; [lia|cbn; lra]. Qed.

(** C03, first half. *)
Theorem C03_radial_bounded (n m : nat) : (m <= n)%nat -> Nat.even (n - m) = true ->
  exists g, zernike_R (Z.of_nat n) (Z.of_nat m) = Ok g /\ forall rho, -1 <= rho <= 1 -> Rabs (g rho) <= 1.
Proof. exact (R_bound n m). Qed.
Print Assumptions C03_radial_bounded.
Theorem C03_circle_bounded n l : admissible n l -> exists g, zernike_U (PyInt n) (PyInt l) = Ok g /\
  forall rho t, -1 <= rho <= 1 -> Rabs (g rho t) <= 1.
Proof. exact (U_bound n l). Qed.
Print Assumptions C03_circle_bounded.
Example C03_nonvacuous : admissible 7 (-3) /\ -1 <= 1 / 3 <= 1.
Proof. split; [split; [lia|exists 5%Z; lia]|lra]. Qed.

(** C04. Orthogonality on the unit disk, with the exact norm. *)
Theorem C04_orthogonal n l n' l' : admissible n l -> admissible n' l' ->
  exists g g', zernike_U (PyInt n) (PyInt l) = Ok g /\ zernike_U (PyInt n') (PyInt l') = Ok g' /\
    has_disk_integral (fun rho t => g rho t * g' rho t)
      (if Z.eq_dec n n' then if Z.eq_dec l l' then (if Z.eq_dec l 0 then 2 else 1) * PI / (2 * (IZR n + 1)) else 0 else 0).
Proof. exact (U_orthogonal_disk n l n' l'). Qed.
Print Assumptions C04_orthogonal.
(** The documentation calls them orthonormal; they are not. *)
Theorem C04_orthonormal_refuted : exists n l g, admissible n l /\ zernike_U (PyInt n) (PyInt l) = Ok g /\
  ~ has_disk_integral (fun rho t => g rho t * g rho t) 1.
Proof. exact U_not_orthonormal_disk. Qed.
Print Assumptions C04_orthonormal_refuted.
Example C04_nonvacuous : admissible 4 (-2) /\ admissible 2 (-2).
Proof. split; (split; [lia|]); [exists 3%Z|exists 2%Z]; lia. Qed.

(** C05. Index validation. *)
Theorem C05_index_checks (n l : pyidx) :
  (is_int l /\ is_int n /\ (0 <= int_val n)%Z ->
     exists g, zernike_U n l = Ok g /\ zernike_U (PyInt (int_val n)) (PyInt (int_val l)) = Ok g
       /\ ((int_val n < Z.abs (int_val l))%Z -> forall rho t, g rho t = 0))
  /\ (~ (is_int l /\ is_int n /\ (0 <= int_val n)%Z) -> zernike_U n l = Err TypeError).
Proof. exact (U_check_exact n l). Qed.
Print Assumptions C05_index_checks.
(** "n - |l| odd vanishes" is false of the code: U(1, 0) = rho. *)
Theorem C05_odd_vanishes_refuted :
  exists g, zernike_U (PyInt 1) (PyInt 0) = Ok g /\ forall rho t, g rho t = rho.
Proof. exact U_odd. Qed.
Print Assumptions C05_odd_vanishes_refuted.
Example C05_nonvacuous : (is_int (PyBool true) /\ is_int (PyInt 3) /\ (0 <= int_val (PyInt 3))%Z)
  /\ ~ (is_int (PyNpInt 1) /\ is_int (PyInt 3) /\ (0 <= int_val (PyInt 3))%Z).
Proof. split; [cbn; repeat split; lia|cbn; tauto]. Qed.

(** U is the documented circle polynomial at every point, including the centre. *)
Theorem C01_circle_polynomial (n : nat) l : admissible (Z.of_nat n) l ->
  exists g, zernike_U (PyInt (Z.of_nat n)) (PyInt l) = Ok g /\ forall rho t, g rho t = circle n l rho t.
Proof. exact (U_circle n l). Qed.
Print Assumptions C01_circle_polynomial.

(** C06. Symmetries, for every n >= 0 and every integer l. *)
Theorem C06_symmetries n l : (0 <= n)%Z -> exists g, zernike_U (PyInt n) (PyInt l) = Ok g /\
  forall rho t,
    g rho (t + PI) = (-1) ^ Z.to_nat (Z.abs l) * g rho t /\
    g (- rho) t = (-1) ^ Z.to_nat n * g rho t /\
    g rho (- t) = (if Z.ltb l 0 then -1 else 1) * g rho t /\
    g rho (t + 2 * PI) = g rho t.
Proof. exact (U_symmetries n l). Qed.
Print Assumptions C06_symmetries.
Example C06_nonvacuous : (0 <= 5)%Z /\ (-1) ^ Z.to_nat (Z.abs (-3)) = -1.
Proof. split; [lia|]. change (Z.to_nat (Z.abs (-3))) with 3%nat. cbn; lra. Qed.

(** C07. The coefficient order. *)
Theorem C07_enumeration_exact n : NoDup (nl_list n) /\ forall i j, In (i, j) (nl_list n) <-> ((i <= n)%Z /\ admissible i j).
Proof. exact (conj (nl_list_NoDup n) (fun i j => nl_list_in n i j)). Qed.
Print Assumptions C07_enumeration_exact.
Theorem C07_count n : (-1 <= n)%Z -> (2 * Z.of_nat (length (nl_list n)) = (n + 1) * (n + 2))%Z.
Proof. exact (nl_list_length n). Qed.
Print Assumptions C07_count.
Theorem C07_position n i j : (i <= n)%Z -> admissible i j ->
  nth_error (nl_list n) (Z.to_nat ((i * (i + 2) + j) / 2)) = Some (i, j).
Proof. exact (nl_list_nth n i j). Qed.
Print Assumptions C07_position.
Theorem C07_prefix n n' : (n <= n')%Z -> exists rest, nl_list n' = nl_list n ++ rest.
Proof. exact (nl_list_prefix n n'). Qed.
Print Assumptions C07_prefix.
Example C07_nonvacuous : nl_list 2 = [(0, 0); (1, -1); (1, 1); (2, -2); (2, 0); (2, 2)]%Z.
Proof. reflexivity. Qed.
