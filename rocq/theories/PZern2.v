(** Lemmas closing C01-C05 in the form of the property statements. *)
From Coquelicot Require Import Coquelicot.
From Verif Require Import PyBase Sums PyLib MZernike PZernike SZernike PRodrigues PBound PDisk PEnum PSym.
Open Scope R_scope.

Lemma U_api n l : (0 <= n)%Z -> zernike_U (PyInt n) (PyInt l) = zernike_U_int n l.
Proof. intros Hn. destruct (proj1 (U_checked (PyInt n) (PyInt l)) (conj I (conj I Hn))) as [E _]. exact E. Qed.

Lemma R_rim_centre (n m : nat) : (m <= n)%nat -> Nat.even (n - m) = true ->
  exists g, zernike_R (Z.of_nat n) (Z.of_nat m) = Ok g /\
    g 1 = 1 /\ g 0 = (if Nat.eqb m 0 then (-1) ^ (n / 2) else 0).
Proof.
  intros H He. destruct (zernike_R_bin n m H He) as (g & E & Hg). exists g; split; [exact E|]. rewrite !Hg.
  destruct (admissible_ab n m H He) as (a & b & Hab & Hn & Hm & -> & ->). split; [apply Rbin_one; assumption|].
  destruct (Nat.eqb_spec m 0) as [->|Hm0].
  - assert (a = b) by lia. subst a. rewrite Rbin_zero_diag.
    replace (n / 2)%nat with b; [reflexivity|]. rewrite Hn. replace (b + b)%nat with (b * 2)%nat by lia. rewrite Nat.div_mul; lia.
  - apply Rbin_zero_pos. lia.
Qed.

Lemma R_bound (n m : nat) : (m <= n)%nat -> Nat.even (n - m) = true ->
  exists g, zernike_R (Z.of_nat n) (Z.of_nat m) = Ok g /\ forall rho, -1 <= rho <= 1 -> Rabs (g rho) <= 1.
Proof.
  intros H He. destruct (zernike_R_bin n m H He) as (g & E & Hg). exists g; split; [exact E|]. intros rho Hr. rewrite Hg.
  destruct (admissible_ab n m H He) as (a & b & Hab & Hn & Hm & -> & ->). apply Rbin_bound; assumption.
Qed.

Lemma U_bound n l : admissible n l -> exists g, zernike_U (PyInt n) (PyInt l) = Ok g /\
  forall rho t, -1 <= rho <= 1 -> Rabs (g rho t) <= 1.
Proof.
  intros H. assert (0 <= n)%Z by (destruct H; lia). destruct (zernike_U_int_form n l H) as (g & E & _ & Hg).
  exists g. rewrite U_api by assumption. split; [exact E|]. intros rho t Hr. rewrite Hg, Rabs_mult.
  rewrite <- (Rmult_1_l 1). apply Rmult_le_compat; try apply Rabs_pos; [apply Rbin_bound; [lia|assumption]|apply PPhase.ang_bound].
Qed.

Lemma U_circle (n : nat) l : admissible (Z.of_nat n) l -> exists g, zernike_U (PyInt (Z.of_nat n)) (PyInt l) = Ok g /\
  forall rho t, g rho t = circle n l rho t.
Proof.
  intros H. rewrite U_api by lia. destruct (U_int_ok (Z.of_nat n) l ltac:(lia)) as (g & E).
  exists g; split; [exact E|]. intros rho t. rewrite <- PWave.Uval_circle by assumption.
  unfold PWave.Uval. cbn [fst snd]. rewrite E. reflexivity.
Qed.

Lemma U_orthogonal_api n l n' l' : admissible n l -> admissible n' l' ->
  exists g g', zernike_U (PyInt n) (PyInt l) = Ok g /\ zernike_U (PyInt n') (PyInt l') = Ok g' /\
    disk_integral (fun rho t => g rho t * g' rho t) =
      if Z.eq_dec n n' then if Z.eq_dec l l' then (if Z.eq_dec l 0 then 2 else 1) * PI / (2 * (IZR n + 1)) else 0 else 0.
Proof.
  intros H H'. rewrite !U_api by (destruct H, H'; lia). apply U_orthogonal; assumption.
Qed.

(** Not orthonormal: the constant polynomial has squared norm pi. *)
Lemma U_not_orthonormal : exists n l g, admissible n l /\ zernike_U (PyInt n) (PyInt l) = Ok g /\
  disk_integral (fun rho t => g rho t * g rho t) <> 1.
Proof.
  assert (A : admissible 0 0) by (split; [lia|exists 0%Z; lia]).
  destruct (U_orthogonal_api 0 0 0 0 A A) as (g & g' & E & E' & H). rewrite E in E'. injection E' as <-.
  exists 0%Z, 0%Z, g. split; [exact A|]. split; [exact E|]. rewrite H. cbn.
  pose proof PI2_3_2. lra.
Qed.

Lemma U_check_exact (n l : pyidx) :
  (is_int l /\ is_int n /\ (0 <= int_val n)%Z ->
     exists g, zernike_U n l = Ok g /\ zernike_U (PyInt (int_val n)) (PyInt (int_val l)) = Ok g
       /\ ((int_val n < Z.abs (int_val l))%Z -> forall rho t, g rho t = 0))
  /\ (~ (is_int l /\ is_int n /\ (0 <= int_val n)%Z) -> zernike_U n l = Err TypeError).
Proof.
  split; [|apply U_checked]. intros H. destruct (proj1 (U_checked n l) H) as [E [g Eg]]. exists g. split; [exact Eg|].
  rewrite U_api by tauto. rewrite <- E. split; [exact Eg|]. intros Hlt rho t. destruct (U_small _ _ Hlt) as (g' & E' & H').
  rewrite E in Eg. rewrite Eg in E'. injection E' as <-. apply H'.
Qed.
