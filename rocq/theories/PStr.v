(** Decimal numerals, directory names and str2LaTeX. *)
From Coq Require Import String Ascii List DecimalString DecimalNat DecimalFacts DecimalZ.
From Verif Require Import PyBase Num MFs MOut.
Import ListNotations.
Open Scope string_scope.
Open Scope list_scope.

Lemma sapp_nil_r s : s ^^ "" = s.
Proof. induction s as [|c t IH]; simpl; congruence. Qed.
Lemma sapp_assoc a b c : (a ^^ b) ^^ c = a ^^ (b ^^ c).
Proof. induction a as [|x t IH]; simpl; congruence. Qed.
Lemma slength_app a b : String.length (a ^^ b) = (String.length a + String.length b)%nat.
Proof. induction a as [|x t IH]; simpl; congruence. Qed.
Lemma sapp_inj_len a b c d : String.length a = String.length c -> a ^^ b = c ^^ d -> a = c /\ b = d.
Proof.
  revert c. induction a as [|x a IH]; intros [|y c] HL H; simpl in *; try discriminate; auto.
  inversion H. destruct (IH c) as [-> ->]; auto.
Qed.
Lemma sapp_inv_head a b c : a ^^ b = a ^^ c -> b = c.
Proof. intros H. apply (sapp_inj_len a b a c); auto. Qed.
Lemma sapp_inv_tail a b c : a ^^ c = b ^^ c -> a = b.
Proof.
  intros H. apply (sapp_inj_len a c b c); auto.
  apply (f_equal String.length) in H. rewrite !slength_app in H. lia.
Qed.

(** Reading a numeral back. *)
Definition parse (s : string) : option nat := option_map Nat.of_uint (NilEmpty.uint_of_string s).
Lemma parse_dec n : parse (dec n) = Some n.
Proof. unfold parse, dec. rewrite NilEmpty.usu. simpl. rewrite Unsigned.of_to. reflexivity. Qed.
Lemma dec_inj n m : dec n = dec m -> n = m.
Proof. intros H. apply (f_equal parse) in H. rewrite !parse_dec in H. congruence. Qed.
Lemma parse_zero s : parse ("0" ^^ s) = parse s.
Proof.
  unfold parse. simpl. destruct (NilEmpty.uint_of_string s) as [u|]; reflexivity.
Qed.
Lemma to_uint_not_nil n : Nat.to_uint n <> Decimal.Nil.
Proof.
  intros H. assert (E : Nat.of_uint (Nat.to_uint n) = Nat.of_uint Decimal.Nil) by congruence.
  rewrite Unsigned.of_to in E. simpl in E. subst n. discriminate.
Qed.
Lemma dec_length n : (1 <= String.length (dec n))%nat.
Proof.
  unfold dec. destruct (Nat.to_uint n) eqn:E; simpl; try lia. exfalso. eapply to_uint_not_nil; eauto.
Qed.
Lemma parse_pad3 n : parse (pad3 n) = Some n.
Proof.
  unfold pad3. pose proof (dec_length n) as L. cbv zeta.
  destruct (String.length (dec n)) as [|[|[|k]]]; [lia| | |].
  - change "00" with ("0" ^^ "0"). rewrite sapp_assoc, !parse_zero. apply parse_dec.
  - rewrite parse_zero. apply parse_dec.
  - apply parse_dec.
Qed.
Lemma pad3_inj n m : pad3 n = pad3 m -> n = m.
Proof. intros H. apply (f_equal parse) in H. rewrite !parse_pad3 in H. congruence. Qed.

(** Characters. *)
Fixpoint chars (s : string) : list ascii := match s with EmptyString => [] | String c t => c :: chars t end.
Lemma chars_app a b : chars (a ^^ b) = chars a ++ chars b.
Proof. induction a; simpl; congruence. Qed.
Lemma chars_inj a b : chars a = chars b -> a = b.
Proof. revert b. induction a as [|x a IH]; intros [|y b] H; simpl in *; try discriminate; auto. inversion H. f_equal; auto. Qed.
Definition digit (c : ascii) : Prop := In c ["0"; "1"; "2"; "3"; "4"; "5"; "6"; "7"; "8"; "9"]%char.
Lemma uint_digits u : Forall digit (chars (NilEmpty.string_of_uint u)).
Proof. unfold digit. induction u; simpl; constructor; auto; simpl; tauto. Qed.
Lemma dec_digits n : Forall digit (chars (dec n)).
Proof. apply uint_digits. Qed.
Lemma pad3_digits n : Forall digit (chars (pad3 n)).
Proof.
  unfold pad3. cbv zeta. rewrite chars_app. apply Forall_app. split; [|apply dec_digits].
  unfold digit. destruct (String.length (dec n)) as [|[|[|k]]]; simpl; repeat constructor; simpl; tauto.
Qed.
Lemma pad3_no_dash n : ~ In "-"%char (chars (pad3 n)).
Proof.
  intros H. pose proof (pad3_digits n) as D. rewrite Forall_forall in D. apply D in H.
  unfold digit in H. simpl in H. repeat (destruct H as [H|H]; [discriminate|]). exact H.
Qed.

(** The last occurrence of a separator is unique. *)
Lemma last_sep_unique {A} (a b : list A) (x : A) c d :
  ~ In x c -> ~ In x d -> a ++ x :: c = b ++ x :: d -> a = b /\ c = d.
Proof.
  revert b. induction a as [|y a IH]; intros [|z b] Hc Hd H; simpl in H.
  - inversion H. auto.
  - inversion H; subst. exfalso. apply Hc. apply in_or_app. right. left. reflexivity.
  - inversion H; subst. exfalso. apply Hd. apply in_or_app. right. left. reflexivity.
  - inversion H; subst. destruct (IH b Hc Hd H2) as [-> ->]. auto.
Qed.
Lemma dir_name_inj n1 n2 j k : n1 ^^ "-" ^^ pad3 j = n2 ^^ "-" ^^ pad3 k -> n1 = n2 /\ j = k.
Proof.
  intros H. apply (f_equal chars) in H. rewrite !chars_app in H. simpl in H.
  apply last_sep_unique in H; try apply pad3_no_dash. destruct H as [H1 H2].
  split; [apply chars_inj, H1|apply pad3_inj, chars_inj, H2].
Qed.

Lemma run_dir_inj base n1 n2 j k : run_dir base n1 j = run_dir base n2 k -> n1 = n2 /\ j = k.
Proof. unfold run_dir. intros H. apply app_inv_head in H. inversion H as [E]. apply dir_name_inj, E. Qed.

(** Signed numerals (the names of the Zernike coefficients). *)
Lemma decZ_inj z w : decZ z = decZ w -> z = w.
Proof.
  intros H. apply (f_equal NilEmpty.int_of_string) in H. unfold decZ in H.
  rewrite !NilEmpty.isi in H. inversion H as [E]. apply (f_equal Z.of_int) in E. rewrite !DecimalZ.of_to in E. exact E.
Qed.
