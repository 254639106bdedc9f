(** Gauss-Jordan elimination finds the inverse or a kernel vector. *)
From Verif Require Import PyBase PyLib Sums MMath MCoMat SMat.
Open Scope R_scope.

Local Notation mat := (nat -> nat -> R).
Definition mm (n : nat) (A B : mat) : mat := fun i j => Rsum n (fun k => A i k * B k j).
Definition one : mat := fun i j => if Nat.eqb i j then 1 else 0.
Definition meq (n : nat) (A B : mat) : Prop := forall i j, (i < n)%nat -> (j < n)%nat -> A i j = B i j.

Lemma mm_assoc n A B C i j : mm n (mm n A B) C i j = mm n A (mm n B C) i j.
Proof.
  unfold mm. transitivity (Rsum n (fun k => Rsum n (fun l => A i l * B l k * C k j))).
  - apply Rsum_ext. intros k _. symmetry. apply Rsum_scal_r.
  - rewrite Rsum_swap. apply Rsum_ext. intros l _. rewrite <- Rsum_scal. apply Rsum_ext. intros; ring.
Qed.
Lemma mm_ext n A A' B B' : meq n A A' -> meq n B B' -> meq n (mm n A B) (mm n A' B').
Proof. intros HA HB i j Hi Hj. unfold mm. apply Rsum_ext. intros k Hk. rewrite HA, HB by assumption. reflexivity. Qed.
Lemma mm_one_l n A : meq n (mm n one A) A.
Proof.
  intros i j Hi Hj. unfold mm, one. rewrite (Rsum_single n i) by (assumption || (intros k _ N; destruct (Nat.eqb_spec i k); [congruence|ring])).
  rewrite Nat.eqb_refl. ring.
Qed.
Lemma mm_one_r n A : meq n (mm n A one) A.
Proof.
  intros i j Hi Hj. unfold mm, one. rewrite (Rsum_single n j) by (assumption || (intros k _ N; destruct (Nat.eqb_spec k j); [congruence|ring])).
  rewrite Nat.eqb_refl. ring.
Qed.
Lemma inverse_unique n A B B' : meq n (mm n B A) one -> meq n (mm n A B') one -> meq n B B'.
Proof.
  intros HL HR i j Hi Hj.
  transitivity (mm n B (mm n A B') i j).
  - rewrite (mm_ext n B B (mm n A B') one) by (assumption || (intros ? ? ? ?; reflexivity)). symmetry. apply mm_one_r; assumption.
  - rewrite <- mm_assoc. rewrite (mm_ext n (mm n B A) one B' B') by (assumption || (intros ? ? ? ?; reflexivity)). apply mm_one_l; assumption.
Qed.

(** Row operations as products. *)
Definition inv_swap (i k : nat) (Q : mat) : mat := fun r c => Q r (if Nat.eqb c i then k else if Nat.eqb c k then i else c).
Definition inv_clear (n k : nat) (M Q : mat) : mat := fun r c => if Nat.eqb c k then Rsum n (fun l => Q r l * M l k) else Q r c.
Definition tr (i k r : nat) : nat := if Nat.eqb r i then k else if Nat.eqb r k then i else r.
Lemma tr_tr i k r : tr i k (tr i k r) = r.
Proof. unfold tr. destruct (Nat.eqb_spec r i) as [->|]; destruct (Nat.eqb_spec k i) as [->|]; rewrite ?Nat.eqb_refl; try reflexivity.
  - destruct (Nat.eqb_spec r i); [congruence|]. rewrite ?Nat.eqb_refl. destruct (Nat.eqb_spec r i); congruence.
  - destruct (Nat.eqb_spec r k) as [->|]; rewrite ?Nat.eqb_refl; [reflexivity|]. destruct (Nat.eqb_spec r i); [congruence|]. destruct (Nat.eqb_spec r k); congruence.
Qed.
Lemma tr_lt n i k r : (i < n)%nat -> (k < n)%nat -> (r < n)%nat -> (tr i k r < n)%nat.
Proof. unfold tr. destruct (Nat.eqb r i); [auto|]. destruct (Nat.eqb r k); auto. Qed.
(** A sum does not depend on the order of its terms. *)
Lemma Rsum_delta n (g : nat -> R) j : (j < n)%nat -> Rsum n (fun r => if Nat.eqb r j then g r else 0) = g j.
Proof. intros Hj. rewrite (Rsum_single n j) by (assumption || (intros k _ N; destruct (Nat.eqb_spec k j); congruence)). rewrite Nat.eqb_refl. reflexivity. Qed.
Lemma Rsum_tr n i k f : (i < n)%nat -> (k < n)%nat -> Rsum n (fun r => f (tr i k r)) = Rsum n f.
Proof.
  intros Hi Hk. transitivity (Rsum n (fun r => Rsum n (fun s => if Nat.eqb s (tr i k r) then f s else 0))).
  - apply Rsum_ext. intros r Hr. symmetry. apply (Rsum_delta n f). apply tr_lt; assumption.
  - rewrite Rsum_swap. apply Rsum_ext. intros s Hs. transitivity (Rsum n (fun r => if Nat.eqb r (tr i k s) then f s else 0)).
    + apply Rsum_ext. intros r _. destruct (Nat.eqb_spec s (tr i k r)) as [E|N]; destruct (Nat.eqb_spec r (tr i k s)) as [E'|N']; try reflexivity.
      * exfalso. apply N'. rewrite E. symmetry. apply tr_tr.
      * exfalso. apply N. rewrite E'. symmetry. apply tr_tr.
    + apply (Rsum_delta n (fun _ => f s)). apply tr_lt; assumption.
Qed.

Definition good (n : nat) (A M X Q : mat) : Prop := meq n M (mm n X A) /\ meq n A (mm n Q M) /\ meq n (mm n Q X) one.
Lemma good_swap n A M X Q i k : (i < n)%nat -> (k < n)%nat -> good n A M X Q -> good n A (swap_rows i k M) (swap_rows i k X) (inv_swap i k Q).
Proof.
  intros Hi Hk (H1 & H2 & H3). split; [|split].
  - intros r c Hr Hc. unfold swap_rows, mm. fold (tr i k r). apply (H1 (tr i k r) c); [apply tr_lt; assumption|exact Hc].
  - intros r c Hr Hc. rewrite H2 by assumption. unfold mm, inv_swap, swap_rows. symmetry. apply (Rsum_tr n i k (fun s => Q r s * M s c)); assumption.
  - intros r c Hr Hc. rewrite <- (H3 r c Hr Hc). unfold mm, inv_swap, swap_rows. apply (Rsum_tr n i k (fun s => Q r s * X s c)); assumption.
Qed.
Lemma clear_back n k M Q X r c : (k < n)%nat -> M k k <> 0 -> mm n (inv_clear n k M Q) (clear_column k M X) r c = mm n Q X r c.
Proof.
  intros Hk Hp. unfold mm, inv_clear, clear_column.
  transitivity (Rsum n (fun l => (if Nat.eqb l k then Rsum n (fun s => Q r s * M s k) * (X k c / M k k) else 0) + (Q r l * X l c - Q r l * M l k * (X k c / M k k)))).
  - apply Rsum_ext. intros l Hl. destruct (Nat.eqb_spec l k) as [->|N]; [field; exact Hp|ring].
  - rewrite Rsum_plus, Rsum_minus. rewrite (Rsum_delta n (fun _ => Rsum n (fun s => Q r s * M s k) * (X k c / M k k)) k Hk).
    rewrite <- (Rsum_scal_r n (X k c / M k k) (fun l => Q r l * M l k)). lra.
Qed.
Lemma clear_mm n k M X A r c : (k < n)%nat -> mm n (clear_column k M X) A r c = clear_column k M (mm n X A) r c.
Proof.
  intros Hk. unfold mm, clear_column. destruct (Nat.eqb r k).
  - unfold Rdiv. rewrite <- Rsum_scal_r. apply Rsum_ext. intros; ring.
  - unfold Rdiv. rewrite <- Rsum_scal_r, <- Rsum_scal, <- Rsum_minus. apply Rsum_ext. intros; ring.
Qed.
Lemma good_clear n A M X Q k : (k < n)%nat -> M k k <> 0 -> good n A M X Q -> good n A (clear_column k M M) (clear_column k M X) (inv_clear n k M Q).
Proof.
  intros Hk Hp (H1 & H2 & H3). split; [|split].
  - intros r c Hr Hc. rewrite clear_mm by exact Hk. unfold clear_column. rewrite !(H1 _ c) by assumption. reflexivity.
  - intros r c Hr Hc. rewrite clear_back by assumption. apply H2; assumption.
  - intros r c Hr Hc. rewrite clear_back by assumption. apply H3; assumption.
Qed.
(** The first k columns are those of the identity. *)
Definition cleared (n k : nat) (M : mat) : Prop := forall r c, (r < n)%nat -> (c < k)%nat -> M r c = one r c.
Lemma cleared_swap n k i M : (k <= i)%nat -> (i < n)%nat -> (k < n)%nat -> cleared n k M -> cleared n k (swap_rows i k M).
Proof.
  intros Hki Hi Hk H r c Hr Hc. unfold swap_rows. fold (tr i k r). rewrite H by (assumption || (apply tr_lt; assumption)). unfold one, tr.
  destruct (Nat.eqb_spec r i) as [->|]; [destruct (Nat.eqb_spec k c); [lia|]; destruct (Nat.eqb_spec i c); [lia|reflexivity]|].
  destruct (Nat.eqb_spec r k) as [->|]; [|reflexivity]. destruct (Nat.eqb_spec i c); [lia|]. destruct (Nat.eqb_spec k c); [lia|reflexivity].
Qed.
Lemma cleared_clear n k M : (k < n)%nat -> M k k <> 0 -> cleared n k M -> cleared n (S k) (clear_column k M M).
Proof.
  intros Hk Hp H r c Hr Hc. unfold clear_column, one. destruct (Nat.eq_dec c k) as [->|N].
  - destruct (Nat.eqb_spec r k) as [->|]; field; exact Hp.
  - assert (Ec : (c < k)%nat) by lia. rewrite (H k c Hk Ec). unfold one. destruct (Nat.eqb_spec k c); [lia|]. unfold Rdiv. rewrite Rmult_0_l, Rmult_0_r, Rminus_0_r.
    destruct (Nat.eqb_spec r k) as [->|]; [destruct (Nat.eqb_spec k c); [lia|reflexivity]|]. rewrite (H r c Hr Ec). reflexivity.
Qed.
Definition apply (n : nat) (A : mat) (x : nat -> R) (i : nat) : R := Rsum n (fun j => A i j * x j).
Lemma apply_mm n A B x i : apply n (mm n A B) x i = apply n A (apply n B x) i.
Proof.
  unfold apply, mm. transitivity (Rsum n (fun j => Rsum n (fun k => A i k * B k j * x j))).
  - apply Rsum_ext. intros; symmetry; apply Rsum_scal_r.
  - rewrite Rsum_swap. apply Rsum_ext. intros k _. rewrite <- Rsum_scal. apply Rsum_ext. intros; ring.
Qed.
Lemma eliminate_spec n ks : forall k A M X Q, ks = seq k (n - k) -> (k <= n)%nat -> good n A M X Q -> cleared n k M ->
  match eliminate_all n ks (M, X) with
  | Some (M', X') => exists Q', good n A M' X' Q' /\ cleared n n M'
  | None => exists x, (exists j, (j < n)%nat /\ x j <> 0) /\ forall i, (i < n)%nat -> apply n A x i = 0
  end.
Proof.
  induction ks as [|k0 ks IH]; intros k A M X Q Ek Hk G C; cbn [eliminate_all].
  - assert (k = n) by (destruct (n - k)%nat eqn:E; [lia|discriminate]). subst k. exists Q. auto.
  - assert (Hn : (k < n)%nat) by (destruct (n - k)%nat eqn:E; [discriminate|lia]). replace (n - k)%nat with (S (n - S k)) in Ek by lia. cbn [seq] in Ek. injection Ek as -> Ek.
    unfold eliminate. cbn [fst snd]. destruct (find_pivot n k M) as [i|] eqn:Ep.
    + unfold find_pivot in Ep. apply find_some in Ep. destruct Ep as [Hin Hnz]. apply in_seq in Hin. apply negb_true_iff, Reqb_false in Hnz.
      assert (Hi : (k <= i < n)%nat) by lia.
      assert (Hp : swap_rows i k M k k <> 0). { unfold swap_rows. rewrite Nat.eqb_refl. destruct (Nat.eqb_spec k i) as [->|]; exact Hnz. }
      apply (IH (S k) A _ _ (inv_clear n k (swap_rows i k M) (inv_swap i k Q)) Ek).
      * lia.
      * apply good_clear; [exact Hn|exact Hp|]. apply good_swap; [lia|lia|exact G].
      * apply cleared_clear; [exact Hn|exact Hp|]. apply cleared_swap; lia || exact C.
    + assert (Hz : forall i, (k <= i < n)%nat -> M i k = 0).
      { intros i Hi. unfold find_pivot in Ep. pose proof (find_none _ _ Ep i) as F. cbn beta in F. rewrite in_seq in F. specialize (F ltac:(lia)). apply negb_false_iff, Reqb_true in F. exact F. }
      exists (fun j => if Nat.eqb j k then 1 else if Nat.ltb j k then - M j k else 0). split; [exists k; split; [exact Hn|rewrite Nat.eqb_refl; lra]|].
      destruct G as (_ & H2 & _). intros i Hi.
      transitivity (apply n (mm n Q M) (fun j => if Nat.eqb j k then 1 else if Nat.ltb j k then - M j k else 0) i).
      { unfold apply. apply Rsum_ext. intros j Hj. rewrite H2 by assumption. reflexivity. }
      rewrite apply_mm. unfold apply at 1. apply Rsum_0. intros r Hr. apply Rmult_eq_0_compat. right. unfold apply.
      transitivity (Rsum n (fun j => (if Nat.eqb j k then M r j else 0) + (if Nat.eqb j r then (if Nat.ltb r k then - M r k else 0) else 0))).
      { apply Rsum_ext. intros j Hj. destruct (Nat.eqb_spec j k) as [->|N].
        - destruct (Nat.eqb_spec k r) as [->|]; [rewrite Nat.ltb_irrefl; ring|ring].
        - destruct (Nat.ltb_spec j k) as [L|L].
          + rewrite (C r j Hr L). unfold one. rewrite (Nat.eqb_sym r j). destruct (Nat.eqb_spec j r) as [->|]; [|ring]. destruct (Nat.ltb_spec r k); [ring|lia].
          + destruct (Nat.eqb_spec j r) as [->|]; [|ring]. destruct (Nat.ltb_spec r k); [lia|ring]. }
      rewrite Rsum_plus, (Rsum_delta n (fun j => M r j) k Hn), (Rsum_delta n (fun _ => if Nat.ltb r k then - M r k else 0) r Hr).
      destruct (Nat.ltb_spec r k); [ring|]. rewrite Hz by lia. ring.
Qed.

(** ** Arrays *)
Lemma array_matrix r c A : matrix r c (array r c A).
Proof. unfold array. split; [rewrite map_length; apply seq_length|]. apply Forall_map, Forall_forall. intros. rewrite map_length. apply seq_length. Qed.
Lemma array_at r c A i j : (i < r)%nat -> (j < c)%nat -> at_ (array r c A) i j = A i j.
Proof.
  intros Hi Hj. unfold at_, array. rewrite (nth_indep _ [] (map (fun j => A 0%nat j) (seq 0 c))) by (rewrite map_length, seq_length; exact Hi).
  rewrite (map_nth (fun i => map (fun j => A i j) (seq 0 c)) (seq 0 r) 0%nat i), seq_nth by exact Hi.
  rewrite (nth_indep _ 0 (A (0 + i)%nat 0%nat)) by (rewrite map_length, seq_length; exact Hj). rewrite (map_nth (fun j => A (0 + i)%nat j) (seq 0 c) 0%nat j), seq_nth by exact Hj. reflexivity.
Qed.
Lemma matrix_ext r c a b : matrix r c a -> matrix r c b -> (forall i j, (i < r)%nat -> (j < c)%nat -> at_ a i j = at_ b i j) -> a = b.
Proof.
  intros [La Fa] [Lb Fb] H. apply nth_ext with (d := []) (d' := []); [congruence|]. intros i Hi. rewrite La in Hi.
  assert (Ra : length (nth i a []) = c) by (rewrite Forall_forall in Fa; apply Fa, nth_In; lia). assert (Rb : length (nth i b []) = c) by (rewrite Forall_forall in Fb; apply Fb, nth_In; lia).
  apply nth_ext with (d := 0) (d' := 0); [congruence|]. intros j Hj. apply (H i j); lia.
Qed.
Definition inverse_of (n : nat) (a b : list (list R)) : Prop :=
  matrix n n b /\ meq n (mm n (at_ b) (at_ a)) one /\ meq n (mm n (at_ a) (at_ b)) one.
(** numpy.linalg.inv returns the inverse, or there is a kernel vector. *)
Lemma inv_spec n a : matrix n n a ->
  (exists b, inv a = Ok b /\ inverse_of n a b) \/
  (inv a = Err LinAlgError /\ exists x, (exists j, (j < n)%nat /\ x j <> 0) /\ forall i, (i < n)%nat -> apply n (at_ a) x i = 0).
Proof.
  intros [L F]. unfold inv. rewrite L.
  assert (E : forallb (fun row => Nat.eqb (length row) n) a = true) by (apply forallb_forall; intros r Hr; rewrite Forall_forall in F; apply Nat.eqb_eq, F, Hr).
  rewrite E. pose proof (eliminate_spec n (seq 0 n) 0 (entries a) (entries a) one one) as S.
  rewrite Nat.sub_0_r in S. specialize (S eq_refl ltac:(lia)).
  assert (G : good n (entries a) (entries a) one one). { split; [|split]; intros i j Hi Hj; [symmetry; apply mm_one_l; assumption|symmetry; apply mm_one_l; assumption|apply mm_one_l; assumption]. }
  specialize (S G). assert (C0 : cleared n 0 (entries a)) by (intros r c _ Hc; lia). specialize (S C0).
  change (fun i j : nat => if Nat.eqb i j then 1 else 0) with one.
  destruct (eliminate_all n (seq 0 n) (entries a, one)) as [[M X]|].
  - left. exists (array n n X). split; [reflexivity|]. destruct S as (Q & (H1 & H2 & H3) & C).
    assert (EM : meq n M one) by (intros i j Hi Hj; apply C; assumption).
    split; [apply array_matrix|]. split.
    + intros i j Hi Hj. transitivity (mm n X (entries a) i j); [unfold mm; apply Rsum_ext; intros k Hk; rewrite array_at by assumption; reflexivity|].
      rewrite <- (H1 i j Hi Hj). apply EM; assumption.
    + intros i j Hi Hj. rewrite <- (H3 i j Hi Hj). unfold mm. apply Rsum_ext. intros k Hk. rewrite array_at by assumption. f_equal.
      transitivity (mm n Q M i k); [apply (H2 i k Hi Hk)|]. rewrite (mm_ext n Q Q M one) by (assumption || (intros ? ? ? ?; reflexivity)). apply mm_one_r; assumption.
  - right. split; [reflexivity|exact S].
Qed.
