(** Proofs about the Zernike model: closed form, rim, centre, parity. *)
From Verif Require Import PyBase Sums PyLib MZernike.
Open Scope R_scope.

Lemma powerRZ_nat x n : powerRZ x (Z.of_nat n) = x ^ n.
Proof. destruct n as [|n]; cbn [Z.of_nat powerRZ]; [reflexivity|]. rewrite SuccNat2Pos.id_succ; reflexivity. Qed.

(** The code's sum with natural-number indices. *)
Definition Rsumform (n a b : nat) (rho : R) : R :=
  Rsum (S b) (fun s => (-1) ^ s * INR (fact (n - s)) * rho ^ (n - 2 * s)
                       / (INR (fact s) * INR (fact (a - s)) * INR (fact (b - s)))).

Lemma zernike_R_form (n a b : nat) : (a + b <= n)%nat -> (b <= a)%nat ->
  exists g, mapM (R_term (Z.of_nat n) (Z.of_nat a) (Z.of_nat b)) (range2 0 (Z.of_nat b + 1)) = Ok g
            /\ forall rho, py_sum (map (fun t => t rho) g) = Rsumform n a b rho.
Proof.
  intros H1 H2. replace (Z.of_nat b + 1)%Z with (Z.of_nat (S b)) by lia. rewrite range2_nat.
  exists (map (fun z => let s := Z.to_nat z in fun rho =>
     powerRZ (-1) z * INR (fact (n - s)) * powerRZ rho (Z.of_nat n - 2 * z)
                       / (INR (fact s) * INR (fact (a - s)) * INR (fact (b - s)))) (map Z.of_nat (seq 0 (S b)))).
  split.
  - apply mapM_ok. intros z Hz. apply in_map_iff in Hz as (s & <- & Hs). apply in_seq in Hs.
    unfold R_term. rewrite Nat2Z.id.
    replace (Z.of_nat n - Z.of_nat s)%Z with (Z.of_nat (n - s)) by lia.
    replace (Z.of_nat a - Z.of_nat s)%Z with (Z.of_nat (a - s)) by lia.
    replace (Z.of_nat b - Z.of_nat s)%Z with (Z.of_nat (b - s)) by lia.
    rewrite !py_factorial_nat. reflexivity.
  - intros rho. rewrite !map_map, py_sum_seq. unfold Rsumform. apply Rsum_ext. intros s Hs.
    rewrite Nat2Z.id. replace (Z.of_nat n - 2 * Z.of_nat s)%Z with (Z.of_nat (n - 2 * s)) by lia.
    rewrite !powerRZ_nat. reflexivity.
Qed.

(** Any n >= m >= 0 (either parity) is accepted. *)
Lemma zernike_R_nat (n m : nat) : (m <= n)%nat ->
  exists g, zernike_R (Z.of_nat n) (Z.of_nat m) = Ok g
            /\ forall rho, g rho = Rsumform n ((n + m) / 2) ((n - m) / 2) rho.
Proof.
  intros H. unfold zernike_R.
  replace ((Z.of_nat n + Z.of_nat m) / 2)%Z with (Z.of_nat ((n + m) / 2))
    by (rewrite Nat2Z.inj_div, Nat2Z.inj_add; reflexivity).
  replace ((Z.of_nat n - Z.of_nat m) / 2)%Z with (Z.of_nat ((n - m) / 2))
    by (rewrite Nat2Z.inj_div, Nat2Z.inj_sub by lia; reflexivity).
  destruct (zernike_R_form n ((n + m) / 2) ((n - m) / 2)) as (g & E & Hg).
  - pose proof (Nat.div_mod (n + m) 2). pose proof (Nat.div_mod (n - m) 2).
    pose proof (Nat.mod_upper_bound (n+m) 2). pose proof (Nat.mod_upper_bound (n-m) 2). lia.
  - apply Nat.div_le_mono; lia.
  - rewrite E. cbn. eexists; split; [reflexivity|]. intros rho; apply Hg.
Qed.

(** n < m: the generator is empty and Python's [sum] returns 0. *)
Lemma zernike_R_small (n m : Z) : (n < m)%Z -> zernike_R n m = Ok (fun _ => 0).
Proof.
  intros H. unfold zernike_R.
  assert ((n - m) / 2 < 0)%Z by (apply Z.div_lt_upper_bound; lia).
  rewrite range2_neg by lia. reflexivity.
Qed.

(** Binomial form for n = a + b. *)
Definition Rbin (a b : nat) (rho : R) : R :=
  Rsum (S b) (fun s => (-1) ^ s * bin b s * bin (a + b - s) b * rho ^ (a + b - 2 * s)).

Lemma Rsumform_bin a b rho : (b <= a)%nat -> Rsumform (a + b) a b rho = Rbin a b rho.
Proof.
  intros H. apply Rsum_ext. intros s Hs. rewrite !bin_quot by lia.
  replace (a + b - s - b)%nat with (a - s)%nat by lia.
  pose proof (INR_fact_neq_0 (a - s)). pose proof (INR_fact_neq_0 (b - s)). pose proof (INR_fact_neq_0 s).
  pose proof (INR_fact_neq_0 b). field. repeat split; assumption.
Qed.

(** The trigonometric form: with n = a+b, sum of (-1)^k C(a,k) C(b,k)
    rho^(n-2k) (1-rho^2)^k. *)
Definition Rtrig (a b : nat) (rho : R) : R :=
  Rsum (S b) (fun k => (-1) ^ k * bin a k * bin b k * rho ^ (a + b - 2 * k) * (1 - rho ^ 2) ^ k).

Lemma Rbin_trig a b rho : (b <= a)%nat -> Rbin a b rho = Rtrig a b rho.
Proof.
  intros Hab. unfold Rbin, Rtrig.
  transitivity (Rsum (S b) (fun s => Rsum (S b) (fun k =>
     bin a k * (bin b k * (bin k s * (-1) ^ s * rho ^ (a + b - 2 * s)))))).
  - apply Rsum_ext. intros s Hs. 
    replace (a + b - s)%nat with (a + (b - s))%nat by lia. rewrite vandermonde.
    rewrite <- Rsum_scal. rewrite <- Rsum_scal_r. apply Rsum_ext. intros k Hk.
    destruct (le_lt_dec s k) as [Hsk|Hsk].
    + rewrite <- (Rmult_assoc (bin b k)), <- (Rmult_assoc (bin b k)), <- (bin_subset b s k) by lia.
      ring.
    + rewrite (bin_gt (b - s) (b - k)), (bin_gt k s) by lia. ring.
  - rewrite Rsum_swap. apply Rsum_ext. intros k Hk.
    rewrite !Rsum_scal.
    rewrite (Rsum_extend (S k) (S b)) by (try lia; intros; rewrite bin_gt by lia; ring).
    rewrite (Rsum_ext (S k) _ (fun s => rho ^ (a + b - 2 * k) * (bin k s * (-1) ^ s * (rho ^ 2) ^ (k - s)))).
    2:{ intros s Hs. rewrite <- pow_mult. replace (a + b - 2 * s)%nat with ((a + b - 2 * k) + 2 * (k - s))%nat by lia.
        rewrite pow_add. ring. }
    rewrite Rsum_scal, <- bin_thm.
    replace (-1 + rho ^ 2) with ((-1) * (1 - rho ^ 2)) by ring. rewrite Rpow_mult_distr. ring.
Qed.

(** C02: the rim value. *)
Lemma Rbin_one a b : (b <= a)%nat -> Rbin a b 1 = 1.
Proof.
  intros H. rewrite Rbin_trig by assumption. unfold Rtrig.
  rewrite (Rsum_single _ O); [| lia |].
  - rewrite !bin_0, pow1. cbn; ring.
  - intros [|i] Hi Hn; [lia|]. replace (1 - 1 ^ 2) with 0 by ring. rewrite (pow_ne_zero (S i)) by lia. ring.
Qed.

Lemma Rbin_zero_pos a b : (b < a)%nat -> Rbin a b 0 = 0.
Proof.
  intros H. apply Rsum_0. intros s Hs. rewrite (pow_ne_zero (a + b - 2 * s)) by lia. ring.
Qed.

Lemma Rbin_zero_diag b : Rbin b b 0 = (-1) ^ b.
Proof.
  unfold Rbin. rewrite (Rsum_single _ b); [|lia|].
  - replace (b + b - b)%nat with b by lia. replace (b + b - 2 * b)%nat with O by lia. rewrite !bin_n. cbn; ring.
  - intros i Hi Hn. rewrite (pow_ne_zero (b + b - 2 * i)) by lia. ring.
Qed.

(** Parity in rho. *)
Lemma pow_m1_even k : (-1) ^ (2 * k) = 1.
Proof. rewrite pow_mult. replace ((-1) ^ 2) with 1 by ring. apply pow1. Qed.

Lemma Rsumform_neg n a b rho : (2 * b <= n)%nat -> Rsumform n a b (- rho) = (-1) ^ n * Rsumform n a b rho.
Proof.
  intros H. unfold Rsumform. rewrite <- Rsum_scal. apply Rsum_ext. intros s Hs.
  replace (- rho) with ((-1) * rho) by ring. rewrite Rpow_mult_distr.
  replace ((-1) ^ n) with ((-1) ^ (n - 2 * s)).
  2:{ replace n with ((n - 2 * s) + 2 * s)%nat at 2 by lia. rewrite pow_add, pow_m1_even; ring. }
  unfold Rdiv. ring.
Qed.

(** Decompose an admissible (n, m). *)
Lemma admissible_ab (n m : nat) : (m <= n)%nat -> Nat.even (n - m) = true ->
  exists a b, (b <= a)%nat /\ n = (a + b)%nat /\ m = (a - b)%nat /\ ((n + m) / 2 = a)%nat /\ ((n - m) / 2 = b)%nat.
Proof.
  intros H He. apply Nat.even_spec in He. destruct He as [b Hb].
  exists (m + b)%nat, b.
  repeat split; try lia.
  - replace (n + m)%nat with ((m + b) * 2)%nat by lia. apply Nat.div_mul; lia.
  - rewrite Hb, Nat.mul_comm. apply Nat.div_mul; lia.
Qed.

Lemma zernike_R_bin (n m : nat) : (m <= n)%nat -> Nat.even (n - m) = true ->
  exists g, zernike_R (Z.of_nat n) (Z.of_nat m) = Ok g /\
    forall rho, g rho = Rbin ((n + m) / 2) ((n - m) / 2) rho.
Proof.
  intros H He. destruct (zernike_R_nat n m H) as (g & E & Hg). exists g; split; [exact E|].
  intros rho; rewrite Hg. destruct (admissible_ab n m H He) as (a & b & Hab & Hn & Hm & -> & ->).
  rewrite Hn. apply Rsumform_bin; assumption.
Qed.
