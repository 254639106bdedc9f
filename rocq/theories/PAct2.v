(** The text of a look-up table: writing and reading it back. *)
From Coq Require Import String Ascii List DecimalString DecimalFacts DecimalZ.
From Flocq Require Import Core.Raux Core.Generic_fmt Core.Round_NE.
From Verif Require Import PyBase PyLib Num MMath MFs MAct SAct PStr PFs PAct.
Import ListNotations.
Open Scope string_scope.
Open Scope list_scope.

Notation nl := (Ascii.ascii_of_nat 10).

Lemma split_on_app c a b : ~ In c (chars a) -> split_on c (a ^^ String c b) = a :: split_on c b.
Proof.
  induction a as [|x a IH]; cbn [String.append split_on chars In]; intros H.
  - rewrite Ascii.eqb_refl. reflexivity.
  - destruct (Ascii.eqb_spec x c) as [->|N]; [exfalso; auto|]. rewrite IH by auto. reflexivity.
Qed.
Lemma split_on_none c a : ~ In c (chars a) -> split_on c a = [a].
Proof.
  induction a as [|x a IH]; cbn [split_on chars In]; intros H; [reflexivity|].
  destruct (Ascii.eqb_spec x c) as [->|N]; [exfalso; auto|]. rewrite IH by auto. reflexivity.
Qed.

Lemma starts_with_app p r : starts_with p (p ^^ r) = true.
Proof. induction p as [|c p IH]; cbn; [destruct r; reflexivity|]. rewrite Ascii.eqb_refl. exact IH. Qed.
Lemma split_first_app c p b r : ~ In c (chars b) -> split_first (String c p) (b ^^ String c p ^^ r) = b.
Proof.
  induction b as [|x b IH]; intros H.
  - change ("" ^^ String c p ^^ r) with (String c p ^^ r).
    destruct (String c p ^^ r) eqn:E; cbn [split_first]; rewrite <- E, starts_with_app; reflexivity.
  - cbn [String.append split_first]. cbn [starts_with]. cbn [chars In] in H.
    destruct (Ascii.eqb_spec c x) as [->|N]; [exfalso; auto|]. cbn [andb]. f_equal. apply IH. auto.
Qed.

(** Words. *)
Definition word (w : string) : Prop := w <> "" /\ ~ In " "%char (chars w).
Lemma words_space s : words (String " " s) = words s.
Proof. unfold words. cbn [split_on]. rewrite Ascii.eqb_refl. reflexivity. Qed.
Lemma words_cons w s : word w -> words (w ^^ String " " s) = w :: words s.
Proof.
  intros [N H]. unfold words. rewrite split_on_app by assumption. cbn [filter]. destruct w; [congruence|reflexivity].
Qed.
Lemma words_one w : word w -> words w = [w].
Proof. intros [N H]. unfold words. rewrite split_on_none by assumption. cbn [filter]. destruct w; [congruence|reflexivity]. Qed.
Lemma words_join ws : Forall word ws -> words (String.concat "  " ws) = ws.
Proof.
  induction 1 as [|w ws Hw F IH]; [reflexivity|]. destruct ws as [|w' ws].
  - cbn [String.concat]. apply words_one. assumption.
  - change (String.concat "  " (w :: w' :: ws)) with (w ^^ String " " (String " " (String.concat "  " (w' :: ws)))).
    rewrite words_cons, words_space, IH by assumption. reflexivity.
Qed.

(** Numerals. *)
Lemma to_int_ok z : match Z.to_int z with Decimal.Pos d => d <> Decimal.Nil | Decimal.Neg d => d <> Decimal.Nil end.
Proof.
  destruct z as [|p|p]; cbn; [discriminate| |].
  - intros H. pose proof (DecimalPos.Unsigned.of_to p) as E. rewrite H in E. discriminate.
  - intros H. pose proof (DecimalPos.Unsigned.of_to p) as E. rewrite H in E. discriminate.
Qed.
Lemma read_decZ z : read_int (decZ z) = Ok z.
Proof.
  unfold read_int, decZ. pose proof (to_int_ok z) as H.
  assert (E : NilEmpty.string_of_int (Z.to_int z) = NilZero.string_of_int (Z.to_int z)).
  { destruct (Z.to_int z) as [d|d]; cbn; destruct d; try reflexivity; congruence. }
  rewrite E. rewrite NilZero.isi.
  - rewrite DecimalZ.of_to. reflexivity.
  - intros E'. rewrite E' in H. congruence.
  - intros E'. rewrite E' in H. congruence.
Qed.

Definition numeral_char (c : ascii) : Prop := c = "-"%char \/ digit c.
Lemma decZ_chars z : Forall numeral_char (chars (decZ z)).
Proof.
  unfold decZ. destruct (Z.to_int z) as [d|d]; cbn [NilEmpty.string_of_int chars].
  - eapply Forall_impl; [|apply uint_digits]. right. assumption.
  - constructor; [left; reflexivity|]. eapply Forall_impl; [|apply uint_digits]. right. assumption.
Qed.
Lemma decZ_not_empty z : decZ z <> "".
Proof.
  unfold decZ. pose proof (to_int_ok z) as H. destruct (Z.to_int z) as [d|d]; cbn; [|discriminate]. destruct d; cbn; try discriminate. congruence.
Qed.
Lemma no_char (P : ascii -> Prop) c s : Forall P (chars s) -> ~ P c -> ~ In c (chars s).
Proof. intros F N H. rewrite Forall_forall in F. auto. Qed.
Lemma not_numeral c : (c = " "%char \/ c = nl \/ c = "*"%char) -> ~ numeral_char c /\ ~ digit c.
Proof.
  intros [-> | [-> | ->]]; (split; [intros [H|H]; [discriminate|]|intros H]); unfold digit in H; cbn in H; repeat (destruct H as [H|H]; [discriminate H|]); exact H.
Qed.
Lemma word_decZ z : word (decZ z).
Proof. split; [apply decZ_not_empty|]. apply (no_char numeral_char); [apply decZ_chars|]. apply not_numeral. auto. Qed.
Lemma word_dec n : word (dec n).
Proof.
  split; [pose proof (dec_length n) as L; intros E; rewrite E in L; cbn in L; lia|].
  apply (no_char digit); [apply dec_digits|]. apply not_numeral. auto.
Qed.

(** One line. *)
Definition line_words (k : nat) (zs : list Z) : list string := "NR" :: dec (k + 1) :: "ffff" :: map decZ zs.
Definition line_body (k : nat) (zs : list Z) : string := "NR " ^^ dec (k + 1) ^^ " ffff " ^^ String.concat "  " (map decZ zs).
Lemma table_line_body k zs : table_line k zs = line_body k zs ^^ String nl "".
Proof. unfold table_line, line_body. rewrite !sapp_assoc. reflexivity. Qed.
Lemma words_line k zs : words (line_body k zs) = line_words k zs.
Proof.
  unfold line_body, line_words.
  change ("NR " ^^ dec (k + 1) ^^ " ffff " ^^ String.concat "  " (map decZ zs))
    with ("NR" ^^ String " " (dec (k + 1) ^^ String " " ("ffff" ^^ String " " (String.concat "  " (map decZ zs))))).
  rewrite words_cons by (split; [discriminate|cbn; intuition discriminate]).
  rewrite words_cons by apply word_dec.
  rewrite words_cons by (split; [discriminate|cbn; intuition discriminate]).
  rewrite words_join; [reflexivity|]. rewrite Forall_map, Forall_forall. intros; apply word_decZ.
Qed.
Lemma chars_concat (P : ascii -> Prop) l : P " "%char -> Forall (fun s => Forall P (chars s)) l -> Forall P (chars (String.concat "  " l)).
Proof.
  intros Hs. induction 1 as [|w ws Hw F IH]; [constructor|]. destruct ws as [|w' ws]; [exact Hw|].
  change (String.concat "  " (w :: w' :: ws)) with (w ^^ String " " (String " " (String.concat "  " (w' :: ws)))).
  rewrite chars_app. apply Forall_app. split; [assumption|]. cbn [chars]. repeat (constructor; [assumption|]). exact IH.
Qed.
Definition line_char (c : ascii) : Prop := numeral_char c \/ In c (chars "NRf ").
Lemma line_chars k zs : Forall line_char (chars (line_body k zs)).
Proof.
  unfold line_body. rewrite !chars_app. rewrite !Forall_app. split; [|split; [|split]].
  - repeat (constructor; [right; cbn; intuition|]). constructor.
  - eapply Forall_impl; [|apply dec_digits]. intros c Hc. left. right. exact Hc.
  - repeat (constructor; [right; cbn; intuition|]). constructor.
  - apply chars_concat; [right; cbn; intuition|]. rewrite Forall_map, Forall_forall. intros z _.
    eapply Forall_impl; [|apply decZ_chars]. intros c Hc. left. exact Hc.
Qed.
Lemma not_line_char c : c = nl \/ c = "*"%char -> ~ line_char c.
Proof.
  intros Hc [H|H]; [revert H; apply not_numeral; tauto|]. destruct Hc as [-> | ->]; cbn in H; intuition discriminate.
Qed.

(** The lines up to the mark. *)
Definition body (z : nat -> nat -> Z) (ks : list nat) : string :=
  fold_right String.append "" (map (fun k => table_line k (map (fun j => z j k) (seq 0 11))) ks).
Lemma body_cons z k ks : body z (k :: ks) = line_body k (map (fun j => z j k) (seq 0 11)) ^^ String nl (body z ks).
Proof. unfold body at 1. cbn [map fold_right]. fold (body z ks). rewrite table_line_body, sapp_assoc. reflexivity. Qed.
Lemma split_body z ks r : split_on nl (body z ks ^^ r) = map (fun k => line_body k (map (fun j => z j k) (seq 0 11))) ks ++ split_on nl r.
Proof.
  induction ks as [|k ks IH]; [reflexivity|]. rewrite body_cons, sapp_assoc.
  change (String nl (body z ks) ^^ r) with (String nl (body z ks ^^ r)).
  rewrite split_on_app; [rewrite IH; reflexivity|]. apply (no_char line_char); [apply line_chars|]. apply not_line_char. auto.
Qed.
Lemma body_no_star z ks : ~ In "*"%char (chars (body z ks)).
Proof.
  induction ks as [|k ks IH]; [intros []|]. rewrite body_cons, chars_app. intros H. apply in_app_or in H. destruct H as [H|[H|H]].
  - revert H. apply (no_char line_char); [apply line_chars|]. apply not_line_char. auto.
  - discriminate.
  - auto.
Qed.

Lemma forallb_map_true {A B} (p : B -> bool) (f : A -> B) l : (forall x, In x l -> p (f x) = true) -> forallb p (map f l) = true.
Proof. intros H. rewrite forallb_forall. intros y Hy. apply in_map_iff in Hy. destruct Hy as (x & <- & Hx). auto. Qed.
Lemma filter_true {A} (p : A -> bool) l : (forall x, In x l -> p x = true) -> filter p l = l.
Proof. induction l as [|x l IH]; intros H; [reflexivity|]. cbn. rewrite (H x (or_introl eq_refl)). f_equal. apply IH. intros; apply H; right; assumption. Qed.

Definition word_rows (z : nat -> nat -> Z) (ks : list nat) : list (list string) :=
  map (fun k => line_words k (map (fun j => z j k) (seq 0 11))) ks.
Lemma line_words_length k zs : length (line_words k zs) = (3 + length zs)%nat.
Proof. unfold line_words. cbn [length]. rewrite map_length. reflexivity. Qed.
Lemma ascii_body z ks : ks <> [] -> ascii_rows 14 (body z ks) = Ok (word_rows z ks).
Proof.
  intros Hk. unfold ascii_rows. rewrite <- (sapp_nil_r (body z ks)), split_body. cbn [split_on].
  destruct ks as [|k ks]; [congruence|]. set (L := map (fun k => line_body k _) (k :: ks)).
  assert (E : exists a b c, L ++ [""] = a :: b :: c). { subst L. cbn [map app]. destruct (map _ ks ++ [""]) eqn:E; [destruct (map _ ks); discriminate|]. eauto. }
  destruct E as (a & b & c & E). rewrite E. rewrite <- E. clear E a b c. rewrite map_app, filter_app.
  assert (EW : map words L = word_rows z (k :: ks)).
  { subst L. unfold word_rows. rewrite map_map. apply map_ext. intros. apply words_line. }
  rewrite EW. rewrite filter_true.
  2: { intros r Hr. unfold word_rows in Hr. apply in_map_iff in Hr. destruct Hr as (x & <- & _). rewrite line_words_length. reflexivity. }
  change (filter (fun r : list string => negb (Nat.eqb (length r) 0)) (map words [""])) with (@nil (list string)). rewrite app_nil_r.
  assert (E : forallb (fun r : list string => Nat.eqb (length r) 14) (word_rows z (k :: ks)) = true).
  { apply forallb_map_true. intros x _. rewrite line_words_length, map_length, seq_length. reflexivity. }
  rewrite E. reflexivity.
Qed.

Lemma line_words_get k (f : nat -> Z) n j : (j < n)%nat -> py_get (line_words k (map f (seq 0 n))) (3 + j) = Ok (decZ (f j)).
Proof.
  intros H. unfold py_get, line_words. cbn [Nat.add nth_error]. rewrite nth_error_map, nth_error_map.
  rewrite (nth_error_nth' (seq 0 n) 0%nat) by (rewrite seq_length; assumption). rewrite seq_nth by assumption. reflexivity.
Qed.
Definition columns (z : nat -> nat -> Z) (ks : list nat) : list (list R) := map (fun j => map (fun k => IZR (z j k)) ks) (seq 0 11).
Lemma columns_of_rows z ks :
  mapM (fun j => mapM (fun row => bind (py_get row (3 + j)) (fun w => bind (read_int w) (fun z => Ok (IZR z)))) (word_rows z ks)) (seq 0 11)
  = Ok (columns z ks).
Proof.
  unfold columns. apply mapM_ok. intros j Hj. apply in_seq in Hj. unfold word_rows.
  induction ks as [|k ks IH]; [reflexivity|]. cbn [map mapM]. rewrite (line_words_get k (fun j => z j k) 11 j) by lia.
  cbn [bind]. rewrite read_decZ. cbn [bind]. rewrite IH. reflexivity.
Qed.
Lemma lookup_of_text z : lookup_columns (table_text z) = Ok (columns z (seq 0 96)).
Proof.
  unfold lookup_columns, table_text. fold (body z (seq 0 96)).
  change ("**ENDE**" ^^ String nl "") with (String "*" "*ENDE**" ^^ String nl "").
  rewrite split_first_app by apply body_no_star. rewrite ascii_body by discriminate. cbn [bind]. apply columns_of_rows.
Qed.
Lemma assign_columns z : mapM assign_96 (columns z (seq 0 96)) = Ok (columns z (seq 0 96)).
Proof.
  rewrite (mapM_ok _ (fun c => c)); [rewrite map_id; reflexivity|]. intros c Hc. unfold columns in Hc. apply in_map_iff in Hc.
  destruct Hc as (j & <- & _). unfold assign_96. rewrite map_length, seq_length. reflexivity.
Qed.

(** Writing. *)
Definition written (T : list (list num)) (j k : nat) : Z := np_int (elem NaN T j k).
Lemma lookup_line_ok T k : rect 11 96 T -> (k < 96)%nat -> lookup_line T k = Ok (table_line k (map (fun j => written T j k) (seq 0 11))).
Proof.
  intros [L F] Hk. unfold lookup_line.
  assert (E : mapM (fun row => py_get row k) T = Ok (map (fun row => nth k row NaN) T)).
  { apply mapM_ok. intros row Hr. rewrite Forall_forall in F. pose proof (F row Hr). unfold py_get.
    rewrite (nth_error_nth' row NaN) by congruence. reflexivity. }
  rewrite E. cbn [bind]. unfold table_line, join2, newline. do 4 f_equal. do 2 f_equal.
  rewrite map_map, map_map. unfold written, elem.
  apply nth_ext with (d := "") (d' := ""); [rewrite !map_length, seq_length; assumption|].
  intros j Hj. rewrite map_length in Hj.
  rewrite nth_indep with (d' := (fun row => decZ (np_int (nth k row NaN))) []) by (rewrite map_length; assumption).
  rewrite map_nth with (f := fun row => decZ (np_int (nth k row NaN))).
  rewrite nth_indep with (d' := (fun j => decZ (np_int (nth k (nth j T []) NaN))) 0%nat) by (rewrite map_length, seq_length; lia).
  rewrite map_nth with (f := fun j => decZ (np_int (nth k (nth j T []) NaN))). rewrite seq_nth by lia. reflexivity.
Qed.
Lemma lookup_lines_ok T : rect 11 96 T -> forall ks acc, Forall (fun k => (k < 96)%nat) ks ->
  lookup_lines T ks acc = (acc ^^ body (written T) ks ^^ "**ENDE**" ^^ newline, Ok tt).
Proof.
  intros H. induction ks as [|k ks IH]; intros acc F; [reflexivity|]. inversion F; subst. cbn [lookup_lines].
  rewrite lookup_line_ok by assumption. rewrite IH by assumption. f_equal. rewrite sapp_assoc. f_equal.
  unfold body at 2. cbn [map fold_right]. fold (body (written T) ks). rewrite sapp_assoc. reflexivity.
Qed.
Lemma lookup_text_ok T : rect 11 96 T -> lookup_lines T (seq 0 96) "" = (table_text (written T), Ok tt).
Proof. intros H. rewrite lookup_lines_ok; [reflexivity|assumption|]. rewrite Forall_forall. intros k Hk. apply in_seq in Hk. lia. Qed.
