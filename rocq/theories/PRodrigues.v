(** C01: the code's sum equals the documented Rodrigues formula. *)
From Coq Require Import FunctionalExtensionality.
From Coquelicot Require Import Coquelicot.
From Verif Require Import PyBase Sums PyLib MZernike PZernike SZernike.
Open Scope R_scope.

Lemma is_derive_Rsum n (f df : nat -> R -> R) x :
  (forall i, (i < n)%nat -> is_derive (f i) x (df i x)) ->
  is_derive (fun t => Rsum n (fun i => f i t)) x (Rsum n (fun i => df i x)).
Proof.
  induction n as [|n IH]; intros H; cbn [Rsum].
  - apply (@is_derive_const R_AbsRing R_NormedModule 0 x).
  - apply (is_derive_plus (fun t => Rsum n (fun i => f i t)) (f n)).
    + apply IH; intros; apply H; lia.
    + apply H; lia.
Qed.

(** k-th derivative of a finite sum of monomials of degree at least k. *)
Lemma Derive_n_monomials N (c : nat -> R) (e : nat -> nat) k :
  (forall i, (i < N)%nat -> (k <= e i)%nat) ->
  forall x, Derive_n (fun t => Rsum N (fun i => c i * t ^ e i)) k x =
    Rsum N (fun i => c i * (INR (fact (e i)) / INR (fact (e i - k))) * x ^ (e i - k)).
Proof.
  induction k as [|k IH]; intros H x.
  - cbn [Derive_n]. apply Rsum_ext; intros i Hi. rewrite Nat.sub_0_r. field. apply INR_fact_neq_0.
  - cbn [Derive_n].
    rewrite (Derive_ext _ (fun x => Rsum N (fun i => c i * (INR (fact (e i)) / INR (fact (e i - k))) * x ^ (e i - k)))).
    2:{ intros t. apply IH. intros i Hi. specialize (H i Hi). lia. }
    apply is_derive_unique.
    apply (is_derive_Rsum N (fun i x => c i * (INR (fact (e i)) / INR (fact (e i - k))) * x ^ (e i - k))
      (fun i x => c i * (INR (fact (e i)) / INR (fact (e i - S k))) * x ^ (e i - S k))).
    intros i Hi. specialize (H i Hi). auto_derive; [trivial|].
    replace (Init.Nat.pred (e i - k)) with (e i - S k)%nat by lia.
    replace (e i - k)%nat with (S (e i - S k)) by lia. rewrite fact_simpl, mult_INR.
    pose proof (INR_fact_neq_0 (e i - S k)). pose proof (not_0_INR (S (e i - S k)) ltac:(lia)).
    field. split; assumption.
Qed.

Lemma expand_rodrigues a b t : t ^ a * (t - 1) ^ b = Rsum (S b) (fun s => (bin b s * (-1) ^ s) * t ^ (a + b - s)).
Proof.
  replace (t - 1) with ((-1) + t) by ring. rewrite bin_thm, <- Rsum_scal. apply Rsum_ext; intros s Hs.
  replace (a + b - s)%nat with (a + (b - s))%nat by lia. rewrite pow_add. ring.
Qed.

Lemma rodrigues_ab a b rho : (b <= a)%nat -> rho <> 0 ->
  / (INR (fact b) * rho ^ (a - b)) * Derive_n (fun t => t ^ a * (t - 1) ^ b) b (rho ^ 2) = Rbin a b rho.
Proof.
  intros Hab Hr.
  rewrite (Derive_n_ext _ (fun t => Rsum (S b) (fun s => (bin b s * (-1) ^ s) * t ^ (a + b - s)))) by (intros; apply expand_rodrigues).
  rewrite (Derive_n_monomials (S b) (fun s => bin b s * (-1) ^ s) (fun s => (a + b - s)%nat) b) by (intros; lia).
  rewrite <- Rsum_scal. apply Rsum_ext. intros s Hs.
  rewrite (bin_quot (a + b - s) b) by lia.
  replace (a + b - s - b)%nat with (a - s)%nat by lia.
  rewrite <- pow_mult. replace (2 * (a - s))%nat with ((a - b) + (a + b - 2 * s))%nat by lia. rewrite pow_add.
  pose proof (INR_fact_neq_0 b). pose proof (INR_fact_neq_0 (a - s)). pose proof (pow_nonzero rho (a - b) Hr).
  field. repeat split; assumption.
Qed.

Lemma zernike_R_rodrigues (n m : nat) : (m <= n)%nat -> Nat.even (n - m) = true ->
  exists g, zernike_R (Z.of_nat n) (Z.of_nat m) = Ok g /\
    forall rho, rho <> 0 -> g rho = rodrigues n m rho.
Proof.
  intros H He. destruct (zernike_R_bin n m H He) as (g & E & Hg). exists g; split; [exact E|].
  intros rho Hr. rewrite Hg. unfold rodrigues.
  destruct (admissible_ab n m H He) as (a & b & Hab & Hn & Hm & -> & ->). rewrite Hm. symmetry. apply rodrigues_ab; assumption.
Qed.
