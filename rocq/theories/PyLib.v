(** Lemmas about the Python vocabulary of [PyBase]. *)
From Verif Require Import PyBase Sums.
Open Scope R_scope.

Lemma mapM_ok {A B} (f : A -> res B) (g : A -> B) l :
  (forall x, In x l -> f x = Ok (g x)) -> mapM f l = Ok (map g l).
Proof.
  induction l as [|x t IH]; cbn; intros H; [reflexivity|].
  rewrite (H x) by auto. cbn. rewrite IH by (intros; apply H; auto). reflexivity.
Qed.

Lemma mapM_err {A B} (f : A -> res B) l l1 x l2 e :
  l = l1 ++ x :: l2 -> (forall y, In y l1 -> exists v, f y = Ok v) -> f x = Err e -> mapM f l = Err e.
Proof.
  intros -> H He. induction l1 as [|y t IH]; cbn.
  - rewrite He; reflexivity.
  - destruct (H y (or_introl eq_refl)) as [v ->]. cbn. rewrite IH; [reflexivity|]. intros; apply H; right; assumption.
Qed.

Lemma mapM_length {A B} (f : A -> res B) l r : mapM f l = Ok r -> length r = length l.
Proof.
  revert r; induction l as [|x t IH]; cbn; intros r H.
  - injection H as <-; reflexivity.
  - destruct (f x); cbn in H; [|discriminate]. destruct (mapM f t); cbn in H; [|discriminate].
    injection H as <-. cbn. f_equal. apply IH; reflexivity.
Qed.

Lemma fold_left_Rplus l acc : fold_left Rplus l acc = acc + fold_right Rplus 0 l.
Proof. revert acc; induction l as [|x t IH]; cbn; intros acc; [lra|]. rewrite IH; lra. Qed.

Lemma py_sum_fold l : py_sum l = fold_right Rplus 0 l.
Proof. unfold py_sum. rewrite fold_left_Rplus; lra. Qed.

Lemma fold_right_seq n : forall k f, fold_right Rplus 0 (map f (seq k n)) = Rsum n (fun i => f (k + i)%nat).
Proof.
  induction n as [|n IH]; intros k f; [reflexivity|].
  cbn [seq map fold_right]. rewrite IH, Rsum_Sl, Nat.add_0_r. f_equal. apply Rsum_ext; intros; f_equal; lia.
Qed.

Lemma py_sum_seq n f : py_sum (map f (seq 0 n)) = Rsum n f.
Proof. rewrite py_sum_fold, fold_right_seq. reflexivity. Qed.

Lemma py_sum_cons x l : py_sum (x :: l) = x + py_sum l.
Proof. rewrite !py_sum_fold. reflexivity. Qed.

Lemma py_sum_nil : py_sum [] = 0.
Proof. reflexivity. Qed.

Lemma py_sum_app l1 l2 : py_sum (l1 ++ l2) = py_sum l1 + py_sum l2.
Proof. induction l1 as [|x t IH]; cbn [app]; [rewrite py_sum_nil; lra|]. rewrite !py_sum_cons, IH; lra. Qed.

Lemma range2_nat n : range2 0 (Z.of_nat n) = map Z.of_nat (seq 0 n).
Proof.
  unfold range2, range3. replace (Z.to_nat ((Z.of_nat n - 0 + 1 - 1) / 1)) with n
    by (rewrite Z.div_1_r; lia).
  apply map_ext; intros; lia.
Qed.

Lemma range2_neg a b : (b <= a)%Z -> range2 a b = [].
Proof. intros H. unfold range2, range3. replace (Z.to_nat _) with O; [reflexivity|]. rewrite Z.div_1_r; lia. Qed.

Lemma in_range3 a b s x : (0 < s)%Z ->
  In x (range3 a b s) <-> (exists k, 0 <= k /\ x = a + s * k /\ x < b)%Z.
Proof.
  intros Hs. unfold range3. rewrite in_map_iff. split.
  - intros (k & <- & Hk). apply in_seq in Hk. exists (Z.of_nat k). repeat split; try lia.
    assert (Z.of_nat k < (b - a + s - 1) / s)%Z by lia.
    assert (s * ((b - a + s - 1) / s) <= b - a + s - 1)%Z by (apply Z.mul_div_le; lia). nia.
  - intros (k & Hk & -> & Hb). exists (Z.to_nat k). split; [rewrite Z2Nat.id by lia; reflexivity|].
    apply in_seq. split; [lia|]. cbn. apply Z2Nat.inj_lt; [lia| |].
    + apply Z.div_pos; nia.
    + assert (k + 1 <= (b - a + s - 1) / s)%Z by (apply Z.div_le_lower_bound; nia). lia.
Qed.

Lemma in_range2 a b x : In x (range2 a b) <-> (a <= x < b)%Z.
Proof.
  unfold range2. rewrite in_range3 by lia. split.
  - intros (k & ? & ? & ?); lia.
  - intros H; exists (x - a)%Z; lia.
Qed.

Lemma py_factorial_nat n : py_factorial (Z.of_nat n) = Ok (INR (fact n)).
Proof. unfold py_factorial. destruct (Z.ltb_spec (Z.of_nat n) 0); [lia|]. rewrite Nat2Z.id; reflexivity. Qed.

Lemma set_nth_length {A} (l : list A) i v : length (set_nth l i v) = length l.
Proof. revert i; induction l as [|x t IH]; intros [|i]; cbn; auto. Qed.

Lemma set_nth_same {A} (l : list A) i v d : (i < length l)%nat -> nth i (set_nth l i v) d = v.
Proof. revert i; induction l as [|x t IH]; intros [|i]; cbn; intros; try lia; auto. apply IH; lia. Qed.

Lemma set_nth_other {A} (l : list A) i j v d : i <> j -> nth j (set_nth l i v) d = nth j l d.
Proof. revert i j; induction l as [|x t IH]; intros [|i] [|j] H; cbn; auto; try lia. Qed.

Lemma linspace_length a b n : length (linspace a b n) = n.
Proof. unfold linspace. rewrite map_length, seq_length; reflexivity. Qed.

Lemma linspace_nth a b n i d : (i < n)%nat -> nth i (linspace a b n) d = a + INR i * ((b - a) / INR (n - 1)).
Proof.
  intros H. unfold linspace.
  rewrite nth_indep with (d' := (fun i => a + INR i * ((b - a) / INR (n - 1))) O)
    by (rewrite map_length, seq_length; assumption).
  rewrite map_nth with (f := fun i => a + INR i * ((b - a) / INR (n - 1))). rewrite seq_nth by assumption. reflexivity.
Qed.

Lemma Rltb_true x y : Rltb x y = true <-> x < y.
Proof. unfold Rltb. destruct (Rlt_dec x y); split; intros; auto; try discriminate; contradiction. Qed.
Lemma Rltb_false x y : Rltb x y = false <-> y <= x.
Proof. unfold Rltb. destruct (Rlt_dec x y); split; intros; auto; try discriminate; lra. Qed.
Lemma Rleb_true x y : Rleb x y = true <-> x <= y.
Proof. unfold Rleb. destruct (Rle_dec x y); split; intros; auto; try discriminate; contradiction. Qed.
Lemma Rleb_false x y : Rleb x y = false <-> y < x.
Proof. unfold Rleb. destruct (Rle_dec x y); split; intros; auto; try discriminate; lra. Qed.
Lemma Reqb_true x y : Reqb x y = true <-> x = y.
Proof. unfold Reqb. destruct (Req_EM_T x y); split; intros; auto; try discriminate; contradiction. Qed.
Lemma Reqb_false x y : Reqb x y = false <-> x <> y.
Proof. unfold Reqb. destruct (Req_EM_T x y); split; intros; auto; try discriminate; contradiction. Qed.

Lemma Rltb_spec x y : reflect (x < y) (Rltb x y).
Proof. apply iff_reflect. symmetry. apply Rltb_true. Qed.
Lemma Rleb_spec x y : reflect (x <= y) (Rleb x y).
Proof. apply iff_reflect. symmetry. apply Rleb_true. Qed.
Lemma Reqb_spec x y : reflect (x = y) (Reqb x y).
Proof. apply iff_reflect. symmetry. apply Reqb_true. Qed.

Lemma Ok_inj {A} (a b : A) : Ok a = Ok b -> a = b.
Proof. congruence. Qed.
