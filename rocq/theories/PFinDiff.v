(** Finite differences and the moments of the radial polynomials. *)
From Verif Require Import PyBase Sums PyLib MZernike PZernike.
Open Scope R_scope.

Fixpoint fd (d : nat) (f : nat -> R) (u : nat) : R :=
  match d with O => f u | S d' => fd d' f (S u) - fd d' f u end.

Lemma fd_ext d f g : (forall u, f u = g u) -> forall u, fd d f u = fd d g u.
Proof. intros H; induction d as [|d IH]; intros u; cbn; [apply H|]. rewrite !IH; reflexivity. Qed.

Lemma fd_plus d f g u : fd d (fun v => f v + g v) u = fd d f u + fd d g u.
Proof. revert u; induction d as [|d IH]; intros u; cbn; [reflexivity|]. rewrite !IH; ring. Qed.

Lemma fd_scal d k f u : fd d (fun v => k * f v) u = k * fd d f u.
Proof. revert u; induction d as [|d IH]; intros u; cbn; [reflexivity|]. rewrite !IH; ring. Qed.

Lemma fd_sum d f : forall u, fd d f u = Rsum (S d) (fun i => (-1) ^ (d - i) * bin d i * f (u + i)%nat).
Proof.
  induction d as [|d IH]; intros u.
  - cbn. rewrite Nat.add_0_r. ring.
  - cbn [fd]. rewrite !IH. clear IH.
    rewrite (Rsum_Sl (S d)). rewrite bin_0, Nat.add_0_r.
    rewrite (Rsum_ext (S d) (fun i => (-1) ^ (S d - S i) * bin (S d) (S i) * f (u + S i)%nat)
       (fun i => (-1) ^ (d - i) * bin d i * f (S u + i)%nat + (-1) ^ (d - i) * bin d (S i) * f (u + S i)%nat)).
    2:{ intros i Hi. cbn [bin]. replace (S d - S i)%nat with (d - i)%nat by lia.
        replace (u + S i)%nat with (S u + i)%nat by lia. ring. }
    rewrite Rsum_plus.
    assert (E : Rsum (S d) (fun i => (-1) ^ (d - i) * bin d i * f (u + i)%nat) =
      (-1) ^ d * f u - Rsum (S d) (fun i => (-1) ^ (d - i) * bin d (S i) * f (u + S i)%nat)).
    { rewrite Rsum_Sl. rewrite (Rsum_Sr d (fun i => (-1) ^ (d - i) * bin d (S i) * f (u + S i)%nat)).
      rewrite (bin_gt d (S d)) by lia. rewrite bin_0, Nat.add_0_r, Nat.sub_0_r.
      rewrite (Rsum_ext d (fun i => (-1) ^ (d - S i) * bin d (S i) * f (u + S i)%nat)
        (fun i => (-1) * ((-1) ^ (d - i) * bin d (S i) * f (u + S i)%nat))).
      2:{ intros i Hi. replace (d - i)%nat with (S (d - S i)) by lia. cbn [pow]. ring. }
      rewrite Rsum_scal. ring. }
    rewrite E. replace (S d - 0)%nat with (S d) by lia. cbn [pow]. ring.
Qed.

(** [pd d f]: f is a polynomial of degree < d (its d-th difference vanishes). *)
Definition pd (d : nat) (f : nat -> R) : Prop := forall u, fd d f u = 0.

Lemma pd_S d f : pd d f -> pd (S d) f.
Proof. intros H u. cbn. rewrite !H; ring. Qed.
Lemma pd_le d e f : (d <= e)%nat -> pd d f -> pd e f.
Proof. induction 1; auto using pd_S. Qed.
Lemma pd_plus d f g : pd d f -> pd d g -> pd d (fun v => f v + g v).
Proof. intros Hf Hg u. rewrite fd_plus, Hf, Hg; ring. Qed.
Lemma pd_scal d k f : pd d f -> pd d (fun v => k * f v).
Proof. intros Hf u. rewrite fd_scal, Hf; ring. Qed.
Lemma pd_ext d f g : (forall u, f u = g u) -> pd d f -> pd d g.
Proof. intros H Hf u. rewrite <- (fd_ext d f g H). apply Hf. Qed.
Lemma pd_const k : pd 1 (fun _ => k).
Proof. intros u; cbn; ring. Qed.

Lemma fd_mul_lin c f d u : fd (S d) (fun v => (INR v + c) * f v) u =
  (INR u + c) * fd (S d) f u + INR (S d) * fd d f (S u).
Proof.
  revert u; induction d as [|d IH]; intros u.
  - cbn [fd]. rewrite !S_INR. cbn [INR]. ring.
  - change (fd (S (S d)) ?F u) with (fd (S d) F (S u) - fd (S d) F u). rewrite !IH.
    change (fd (S d) f (S u)) with (fd d f (S (S u)) - fd d f (S u)).
    rewrite (S_INR (S d)), (S_INR u). cbn [fd]. ring.
Qed.

Lemma pd_mul_lin c d f : pd d f -> pd (S d) (fun v => (INR v + c) * f v).
Proof. intros H u. rewrite fd_mul_lin. rewrite H. change (fd (S d) f u) with (fd d f (S u) - fd d f u). rewrite !H. ring. Qed.

(** Products of linear factors. *)
Fixpoint pr (l : list R) (x : R) : R := match l with [] => 1 | c :: t => (x + c) * pr t x end.

Lemma pr_app l1 l2 x : pr (l1 ++ l2) x = pr l1 x * pr l2 x.
Proof. induction l1 as [|c t IH]; cbn; [ring|]. rewrite IH; ring. Qed.

Lemma pd_pr l : pd (S (length l)) (fun u => pr l (INR u)).
Proof. induction l as [|c t IH]; cbn [pr length]; [apply pd_const|]. apply pd_mul_lin with (f := fun u => pr t (INR u)). exact IH. Qed.

Lemma pr_divide l z : exists S, pd (length l) S /\ forall u, pr l (INR u) = pr l (- z) + (INR u + z) * S u.
Proof.
  induction l as [|c t (S0 & HS & E)].
  - exists (fun _ => 0). split; [intros u; reflexivity|]. intros u; cbn; ring.
  - exists (fun u => pr t (- z) + (INR u + c) * S0 u). split.
    + cbn [length]. apply pd_plus.
      * apply (pd_le 1); [lia|]. apply pd_const.
      * apply pd_mul_lin; assumption.
    + intros u. cbn [pr]. rewrite E. ring.
Qed.

(** Rising product z (z+1) ... (z+d). *)
Fixpoint rise (d : nat) (z : R) : R := match d with O => z | S d' => z * rise d' (z + 1) end.

Lemma rise_pos d z : 0 < z -> 0 < rise d z.
Proof. revert z; induction d as [|d IH]; intros z Hz; cbn; [assumption|]. apply Rmult_lt_0_compat; [assumption|]. apply IH; lra. Qed.

Lemma rise_last d z : rise (S d) z = rise d z * (z + INR (S d)).
Proof.
  revert z; induction d as [|d IH]; intros z.
  - cbn. ring.
  - change (rise (S (S d)) z) with (z * rise (S d) (z + 1)). rewrite IH.
    change (rise (S d) z) with (z * rise d (z + 1)). rewrite (S_INR (S d)). ring.
Qed.

Lemma fd_inv d z u : 0 < z -> fd d (fun v => / (INR v + z)) u = (-1) ^ d * INR (fact d) / rise d (INR u + z).
Proof.
  intros Hz. revert u; induction d as [|d IH]; intros u.
  - cbn. field. pose proof (pos_INR u). lra.
  - cbn [fd]. rewrite !IH. pose proof (pos_INR u).
    rewrite S_INR. replace (INR u + 1 + z) with (INR u + z + 1) by ring.
    set (w := INR u + z). assert (Hw : 0 < w) by (unfold w; lra).
    pose proof (rise_pos d (w + 1) ltac:(lra)) as H1. pose proof (rise_pos d w Hw) as H2.
    assert (E : w * rise d (w + 1) = rise d w * (w + INR (S d))) by (rewrite <- rise_last; reflexivity).
    assert (0 < INR (S d)) by (apply lt_0_INR; lia).
    cbn [rise]. rewrite fact_simpl, mult_INR.
    replace (rise d w) with (w * rise d (w + 1) / (w + INR (S d))) by (rewrite E; field; lra).
    cbn [pow]. field. repeat split; lra.
Qed.

(** Binomials as products. *)
Lemma bin_prod n b : bin (n + b) b * INR (fact b) = pr (map INR (seq 1 b)) (INR n).
Proof.
  induction b as [|b IH].
  - rewrite bin_0. cbn. ring.
  - rewrite seq_S, map_app, pr_app, <- IH. rewrite Nat.add_succ_r.
    rewrite fact_simpl, mult_INR.
    transitivity (INR (S b) * bin (S (n + b)) (S b) * INR (fact b)); [ring|].
    rewrite bin_absorb. cbn [map pr].
    replace (INR (S (n + b))) with (INR n + INR (1 + b)) by (rewrite <- plus_INR; f_equal; lia). ring.
Qed.

Lemma pr_shift l m x : pr (map (fun i => INR (m + i)%nat) l) x = pr (map INR l) (INR m + x).
Proof. induction l as [|i t IH]; cbn [map pr]; [reflexivity|]. rewrite IH, plus_INR. ring. Qed.

Lemma pr_neg b k : pr (map INR (seq k b)) (- INR (k + b)) = (-1) ^ b * INR (fact b).
Proof.
  revert k; induction b as [|b IH]; intros k.
  - cbn; ring.
  - cbn [seq map pr]. replace (k + S b)%nat with (S k + b)%nat by lia. rewrite IH.
    rewrite plus_INR, !S_INR, fact_simpl, mult_INR, S_INR. cbn [pow]. ring.
Qed.

Lemma rise_fact b z : rise b (INR (S z)) * INR (fact z) = INR (fact (z + b + 1)).
Proof.
  induction b as [|b IH].
  - cbn [rise]. rewrite Nat.add_0_r, Nat.add_1_r, fact_simpl, mult_INR. ring.
  - rewrite rise_last. replace (z + S b + 1)%nat with (S (z + b + 1)) by lia.
    rewrite (fact_simpl (z + b + 1)), mult_INR, <- IH.
    replace (INR (S (z + b + 1))) with (INR (S z) + INR (S b)) by (rewrite <- plus_INR; f_equal; lia). ring.
Qed.

(** The moment sums of the radial polynomial with m = a - b. *)
Definition moment (m b j : nat) : R :=
  Rsum (S b) (fun s => (-1) ^ s * bin b s * bin (m + b + b - s) b / (2 * INR (m + b - s + j + 1))).

Lemma moment_fd m b j : moment m b j =
  / (2 * INR (fact b)) * fd b (fun u => pr (map (fun i => INR (m + i)%nat) (seq 1 b)) (INR u) * / (INR u + INR (m + j + 1))) 0.
Proof.
  rewrite fd_sum, <- Rsum_scal. unfold moment. rewrite Rsum_rev. apply Rsum_ext. intros i Hi.
  replace (S b - 1 - i)%nat with (b - i)%nat by lia. rewrite bin_sym by lia.
  replace (m + b + b - (b - i))%nat with ((m + i) + b)%nat by lia.
  replace (m + b - (b - i) + j + 1)%nat with (i + (m + j + 1))%nat by lia.
  cbn [Nat.add]. rewrite pr_shift, <- plus_INR, <- bin_prod. rewrite plus_INR.
  assert (0 < INR (m + j + 1)) by (apply lt_0_INR; lia). pose proof (pos_INR i).
  field. split; [lra|apply INR_fact_neq_0].
Qed.

Lemma moment_zero m b j : (j < b)%nat -> moment m b j = 0.
Proof.
  intros Hj. rewrite moment_fd.
  assert (Es : seq 1 b = seq 1 j ++ (1 + j)%nat :: seq (S (1 + j)) (b - S j)).
  { replace b with (j + S (b - S j))%nat at 1 by lia. rewrite seq_app. reflexivity. }
  rewrite Es, map_app. cbn [map].
  set (l1 := map (fun i => INR (m + i)%nat) (seq 1 j)).
  set (l2 := map (fun i => INR (m + i)%nat) (seq (S (1 + j)) (b - S j))).
  rewrite (fd_ext b _ (fun u => pr (l1 ++ l2) (INR u))).
  - assert (H : pd b (fun u => pr (l1 ++ l2) (INR u))).
    { apply (pd_le (S (length (l1 ++ l2)))); [|apply pd_pr].
      unfold l1, l2. rewrite app_length, !map_length, !seq_length. lia. }
    rewrite H. ring.
  - intros u. rewrite !pr_app. cbn [pr]. replace (m + (1 + j))%nat with (m + j + 1)%nat by lia.
    assert (0 < INR (m + j + 1)) by (apply lt_0_INR; lia). pose proof (pos_INR u).
    field. lra.
Qed.

Lemma moment_diag m b : bin (m + b + b) b * moment m b b = / (2 * INR (m + b + b + 1)).
Proof.
  rewrite moment_fd.
  set (l := map (fun i => INR (m + i)%nat) (seq 1 b)).
  destruct (pr_divide l (INR (m + b + 1))) as (S0 & HS & E).
  assert (Hz : 0 < INR (m + b + 1)) by (apply lt_0_INR; lia).
  rewrite (fd_ext b _ (fun u => pr l (- INR (m + b + 1)) * / (INR u + INR (m + b + 1)) + S0 u)).
  2:{ intros u. rewrite E. pose proof (pos_INR u). field. lra. }
  rewrite fd_plus, fd_scal, fd_inv by assumption.
  assert (Hl : length l = b) by (unfold l; rewrite map_length, seq_length; reflexivity).
  rewrite Hl in HS. rewrite HS.
  unfold l. rewrite pr_shift. replace (INR m + - INR (m + b + 1)) with (- INR (1 + b)) by (rewrite !plus_INR; ring).
  rewrite pr_neg. cbn [INR]. rewrite Rplus_0_l.
  replace (m + b + 1)%nat with (S (m + b)) by lia.
  pose proof (rise_fact b (m + b)) as Er.
  rewrite bin_quot by lia. replace (m + b + b - b)%nat with (m + b)%nat by lia.
  assert (Hr : 0 < rise b (INR (S (m + b)))) by (apply rise_pos, lt_0_INR; lia).
  replace (m + b + b + 1)%nat with (S (m + b + b)) in * by lia.
  rewrite fact_simpl, mult_INR in Er.
  pose proof (INR_fact_neq_0 b). pose proof (INR_fact_neq_0 (m + b)). pose proof (INR_fact_neq_0 (m + b + b)).
  pose proof (not_0_INR (S (m + b + b)) ltac:(lia)).
  replace (rise b (INR (S (m + b)))) with (INR (S (m + b + b)) * INR (fact (m + b + b)) / INR (fact (m + b))) by (rewrite <- Er; field; assumption).
  transitivity ((-1) ^ (2 * b) * / (2 * INR (S (m + b + b)))); [|rewrite pow_m1_even; ring].
  replace (2 * b)%nat with (b + b)%nat by lia. rewrite pow_add.
  field. repeat split; assumption.
Qed.
