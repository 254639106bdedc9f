(** Reading a look-up file of any content. *)
From Coq Require Import String Ascii List ZArith Lia DecimalString DecimalPos DecimalN DecimalZ.
From Verif Require Import PyBase PyLib Num MMath MFs MAct SAct PStr PFs PAct PAct2 PAct8 SText.
Import ListNotations.
Open Scope string_scope.
Open Scope list_scope.

Lemma starts_iff p : forall s, starts_with p s = true <-> exists r, s = p ^^ r.
Proof.
  induction p as [|a p IH]; intros s; cbn [starts_with]; [split; [intros _; exists s; reflexivity|reflexivity]|].
  destruct s as [|b s]; [split; [discriminate|intros [r H]; discriminate]|]. rewrite Bool.andb_true_iff, IH. split.
  - intros [E [r ->]]. apply Ascii.eqb_eq in E as ->. exists r. reflexivity.
  - intros [r H]. cbn in H. injection H as -> ->. split; [apply Ascii.eqb_refl|]. exists r. reflexivity.
Qed.
Lemma first_upto mark t : upto mark t (split_first mark t).
Proof.
  induction t as [|c t [(r & E & V) L]]; cbn [split_first].
  - destruct (starts_with mark "") eqn:S.
    + split; [|intros; cbn; lia]. exists "". split; [reflexivity|left; reflexivity].
    + split; [exists ""; split; [reflexivity|left; reflexivity]|]. intros; cbn; lia.
  - destruct (starts_with mark (String c t)) eqn:S.
    + apply starts_iff in S as [r' S]. split; [|intros; cbn; lia]. exists (String c t). split; [reflexivity|]. right. exists r'. exact S.
    + split; [exists r; split; [cbn; rewrite <- E; reflexivity|exact V]|]. intros p' r' H. destruct p' as [|b p'].
      * exfalso. assert (starts_with mark (String c t) = true) by (apply starts_iff; exists r'; exact H). congruence.
      * cbn in H. injection H as _ H. specialize (L p' r' H). cbn [String.length]. lia.
Qed.
Lemma slen_app a b : String.length (a ^^ b) = (String.length a + String.length b)%nat.
Proof. induction a; cbn; congruence. Qed.
Lemma sapp_same a : forall b r s, a ^^ r = b ^^ s -> String.length a = String.length b -> a = b.
Proof. induction a as [|x a IH]; intros [|y b] r s H L; try discriminate; [reflexivity|]. cbn in H, L. injection H as -> H. injection L as L. f_equal. eapply IH; eassumption. Qed.
Lemma upto_unique mark t p q : mark <> "" -> upto mark t p -> upto mark t q -> p = q.
Proof.
  intros M. assert (G : forall p q, upto mark t p -> upto mark t q -> (String.length p <= String.length q)%nat).
  { intros a b [(r & E & V) L] [(r2 & E2 & [->|(r' & ->)]) L2].
    - rewrite E in E2. apply (f_equal String.length) in E2. rewrite !slen_app in E2. cbn in E2. lia.
    - exact (L _ _ E2). }
  intros Hp Hq. pose proof (G _ _ Hp Hq). pose proof (G _ _ Hq Hp). destruct Hp as [(r & E & _) _], Hq as [(r2 & E2 & _) _]. rewrite E in E2. apply (sapp_same _ _ _ _ E2). lia.
Qed.
Lemma concat_cons c (a b : string) l : String.concat (String c "") (a :: b :: l) = a ^^ String c (String.concat (String c "") (b :: l)).
Proof. reflexivity. Qed.
Lemma split_on_splits c s : splits c s (split_on c s).
Proof.
  induction s as [|a s (N & E & F)]; cbn [split_on].
  - split; [discriminate|]. split; [reflexivity|]. constructor; [intros []|constructor].
  - destruct (split_on c s) as [|w ws] eqn:Q; [congruence|]. destruct (Ascii.eqb_spec a c) as [->|D].
    + split; [discriminate|]. split; [rewrite concat_cons, E; reflexivity|]. constructor; [intros []|exact F].
    + split; [discriminate|]. split; [rewrite <- E; destruct ws; reflexivity|]. inversion F as [|? ? F1 F2]; subst. constructor; [|exact F2]. cbn. intros [H|H]; [congruence|contradiction].
Qed.
Lemma splits_unique c : forall l s, splits c s l -> split_on c s = l.
Proof.
  intros l. induction l as [|a l IH]; intros s (N & E & F); [congruence|]. inversion F as [|? ? F1 F2]; subst. destruct l as [|b l].
  - cbn [String.concat]. apply split_on_none. exact F1.
  - rewrite concat_cons. rewrite split_on_app by exact F1. f_equal. apply IH. split; [discriminate|]. split; [reflexivity|exact F2].
Qed.
Lemma words_has s : line_has s (words s).
Proof.
  exists (split_on " " s). split; [apply split_on_splits|]. unfold words. apply filter_ext. intros [|a w]; reflexivity.
Qed.
Lemma has_words s ws : line_has s ws -> words s = ws.
Proof. intros (parts & P & ->). unfold words. rewrite (splits_unique _ _ _ P). apply filter_ext. intros [|a w]; reflexivity. Qed.
Lemma has_all lines all : Forall2 line_has lines all <-> map words lines = all.
Proof.
  split.
  - induction 1 as [|x y l r H _ IH]; [reflexivity|]. cbn. rewrite (has_words _ _ H), IH. reflexivity.
  - intros <-. induction lines; constructor; [apply words_has|assumption].
Qed.
Lemma ascii_iff n t rows : ascii_rows n t = Ok rows <-> text_has t rows /\ rows <> [] /\ Forall (fun r => length r = n) rows.
Proof.
  unfold ascii_rows. change (Ascii.ascii_of_nat 10) with (ascii_of_nat 10). split.
  - intros H. pose proof (split_on_splits (ascii_of_nat 10) t) as P. destruct (split_on (ascii_of_nat 10) t) as [|a [|b l]]; try discriminate.
    destruct (filter _ (map words (a :: b :: l))) as [|r rs] eqn:Q; [discriminate|]. destruct (forallb _ _) eqn:G; [|discriminate]. apply Ok_inj in H. subst rows. split.
    + exists (a :: b :: l), (map words (a :: b :: l)). split; [exact P|]. split; [cbn; lia|]. split; [apply has_all; reflexivity|]. symmetry. exact Q.
    + split; [discriminate|]. rewrite forallb_forall in G. apply Forall_forall. intros x Hx. apply Nat.eqb_eq, G, Hx.
  - intros ((lines & all & P & L2 & A & E) & N & F). rewrite (splits_unique _ _ _ P). apply has_all in A. subst all. destruct lines as [|a [|b l]]; [cbn in L2; lia|cbn in L2; lia|].
    rewrite <- E. destruct rows as [|r rs]; [congruence|]. replace (forallb _ (r :: rs)) with true; [reflexivity|]. symmetry. apply forallb_forall. intros x Hx. apply Nat.eqb_eq. rewrite Forall_forall in F. apply F, Hx.
Qed.

(** ** Numbers *)
Fixpoint horner (acc : Z) (d : Decimal.uint) : Z :=
  match d with
  | Decimal.Nil => acc
  | Decimal.D0 d => horner (10 * acc + 0) d | Decimal.D1 d => horner (10 * acc + 1) d | Decimal.D2 d => horner (10 * acc + 2) d | Decimal.D3 d => horner (10 * acc + 3) d | Decimal.D4 d => horner (10 * acc + 4) d
  | Decimal.D5 d => horner (10 * acc + 5) d | Decimal.D6 d => horner (10 * acc + 6) d | Decimal.D7 d => horner (10 * acc + 7) d | Decimal.D8 d => horner (10 * acc + 8) d | Decimal.D9 d => horner (10 * acc + 9) d
  end%Z.
Lemma horner_acc d : forall p, Z.pos (Pos.of_uint_acc d p) = horner (Z.pos p) d.
Proof. induction d as [|d IH|d IH|d IH|d IH|d IH|d IH|d IH|d IH|d IH|d IH]; intros p; cbn [Pos.of_uint_acc horner]; [reflexivity|..]; rewrite IH; f_equal; lia. Qed.
Lemma horner_of d : Z.of_uint d = horner 0 d.
Proof.
  unfold Z.of_uint. induction d as [|d IH|d IH|d IH|d IH|d IH|d IH|d IH|d IH|d IH|d IH]; cbn [Pos.of_uint horner]; [reflexivity|exact IH|..]; cbn [Z.of_N]; rewrite horner_acc; reflexivity.
Qed.
Lemma decimal_uint s : forall acc, decimal acc s = match NilEmpty.uint_of_string s with Some d => Some (horner acc d) | None => None end.
Proof.
  induction s as [|c s IH]; intros acc; [reflexivity|]. cbn [decimal NilEmpty.uint_of_string].
  destruct c as [[] [] [] [] [] [] [] []]; match goal with |- context [digit ?a] => let v := eval vm_compute in (digit a) in change (digit a) with v end; cbv iota beta; try rewrite IH; destruct (NilEmpty.uint_of_string s); reflexivity.
Qed.
Lemma read_iff w z : read_int w = Ok z <-> spells w z.
Proof.
  unfold read_int, spells. assert (NZ : forall v, v <> "" -> NilZero.uint_of_string v = NilEmpty.uint_of_string v) by (intros [|a v] H; [congruence|reflexivity]).
  destruct w as [|a w].
  - split; [discriminate|]. intros [[H _]|(v & y & H & _)]; [congruence|discriminate].
  - cbn [NilZero.int_of_string]. destruct (Ascii.eqb_spec a "-") as [->|D].
    + split.
      * intros H. right. destruct w as [|b w]; [discriminate|]. rewrite NZ in H by discriminate. exists (String b w). pose proof (decimal_uint (String b w) 0) as Q. destruct (NilEmpty.uint_of_string (String b w)) as [d|]; [|discriminate].
        exists (horner 0 d). split; [reflexivity|]. split; [discriminate|]. split; [exact Q|]. cbn [option_map] in H. apply Ok_inj in H. subst z. cbn [Z.of_int]. rewrite horner_of. reflexivity.
      * intros [[_ H]|(v & y & E & N & H & ->)]; [discriminate|]. injection E as <-. rewrite NZ by exact N. rewrite decimal_uint in H. destruct (NilEmpty.uint_of_string w) as [d|]; [|discriminate]. injection H as <-. cbn [option_map Z.of_int]. rewrite horner_of. reflexivity.
    + rewrite NZ by discriminate. split.
      * intros H. left. split; [discriminate|]. rewrite decimal_uint. destruct (NilEmpty.uint_of_string (String a w)) as [d|]; [|discriminate]. cbn [option_map] in H. apply Ok_inj in H. subst z. cbn [Z.of_int]. rewrite horner_of. reflexivity.
      * intros [[_ H]|(v & y & E & _)]; [|congruence]. rewrite decimal_uint in H. destruct (NilEmpty.uint_of_string (String a w)) as [d|]; [|discriminate]. injection H as <-. cbn [option_map Z.of_int]. rewrite horner_of. reflexivity.
Qed.

(** ** The table *)
Lemma mapM_succeeds {A B} (f : A -> res B) l : (forall x, In x l -> exists y, f x = Ok y) -> exists ys, mapM f l = Ok ys.
Proof.
  induction l as [|x l IH]; intros H; [exists []; reflexivity|]. destruct (H x (or_introl eq_refl)) as [y Y]. destruct IH as [ys Ys]; [intros; apply H; right; assumption|]. exists (y :: ys). cbn [mapM]. rewrite Y. cbn [bind]. rewrite Ys. reflexivity.
Qed.
Lemma mapM_at {A B} (f : A -> res B) (da : A) (db : B) l ys : mapM f l = Ok ys -> length ys = length l /\ forall i, (i < length l)%nat -> f (nth i l da) = Ok (nth i ys db).
Proof.
  revert ys. induction l as [|x l IH]; intros ys H; cbn [mapM] in H; [apply Ok_inj in H as <-; split; [reflexivity|intros i Hi; cbn in Hi; lia]|].
  destruct (f x) as [y|] eqn:Y; [|discriminate]. cbn [bind] in H. destruct (mapM f l) as [t|] eqn:T; [|discriminate]. cbn [bind] in H. apply Ok_inj in H as <-. destruct (IH t eq_refl) as [L N]. split; [cbn; congruence|]. intros [|i] Hi; [exact Y|]. cbn [nth]. apply N. cbn in Hi. lia.
Qed.
Open Scope R_scope.
Definition cell (rows : list (list string)) (j k : nat) : string := nth (3 + j) (nth (if Nat.eqb (length rows) 1 then 0%nat else k) rows []) "".
Lemma nth_repeat_lt (x : R) n : forall k, (k < n)%nat -> nth k (repeat x n) 0 = x.
Proof. induction n as [|n IH]; intros k Hk; [lia|]. destruct k; [reflexivity|]. cbn [repeat nth]. apply IH. lia. Qed.
Lemma py_word row i : (i < length row)%nat -> py_get row i = Ok (nth i row "").
Proof. intros H. unfold py_get. rewrite (nth_error_nth' row "" H). reflexivity. Qed.
Lemma parse_sound t rows r : ascii_rows 14 (split_first "**ENDE**" t) = Ok rows -> parse_text t = Ok r ->
  fst r = alpha_lookup /\ rect 11 96 (snd r) /\ (length rows = 96 \/ length rows = 1)%nat /\
  forall j k, (j < 11)%nat -> (k < 96)%nat -> exists z, spells (cell rows j k) z /\ elem 0 (snd r) j k = IZR z.
Proof.
  intros Er H. pose proof (parse_count _ _ _ Er H) as Cn. destruct (proj1 (ascii_iff _ _ _) Er) as (_ & _ & W). destruct (parse_rows _ _ _ Er H) as (cols & Ec & Ea & Ef). destruct (mapM_cols _ _ Ec) as [Lc Hc].
  destruct (mapM_at assign_96 [] [] _ _ Ea) as [Lt At]. rewrite Lc in Lt, At.
  assert (Col : forall j, (j < 11)%nat -> length (nth j (snd r) []) = 96%nat /\ forall k, (k < 96)%nat -> exists z, spells (cell rows j k) z /\ nth k (nth j (snd r) []) 0 = IZR z).
  { intros j Hj. specialize (At j Hj). pose proof (Hc j Hj) as G. unfold get_col in G. destruct (mapM_at _ [] 0 _ _ G) as [Lg Ng]. unfold assign_96 in At.
    assert (Cell : forall k, (k < length rows)%nat -> exists z, spells (nth (3 + j) (nth k rows []) "") z /\ nth k (nth j cols []) 0 = IZR z).
    { intros k Hk. specialize (Ng k Hk). rewrite Forall_forall in W. rewrite py_word in Ng by (rewrite (W _ (nth_In rows [] Hk)); lia). cbn [bind] in Ng. destruct (read_int _) as [z|] eqn:Z; [|discriminate]. cbn [bind] in Ng. apply Ok_inj in Ng. exists z. split; [apply read_iff, Z|]. symmetry. exact Ng. }
    unfold cell. destruct Cn as [Cn|Cn]; rewrite Cn in *; cbn [Nat.eqb].
    - rewrite Lg in At. cbn [Nat.eqb] in At. apply Ok_inj in At. rewrite <- At. split; [exact Lg|]. intros k Hk. apply Cell, Hk.
    - destruct (nth j cols []) as [|x [|y c]] eqn:Q; try discriminate Lg. cbn [length Nat.eqb] in At. apply Ok_inj in At. rewrite <- At. split; [apply repeat_length|]. intros k Hk. destruct (Cell 0%nat ltac:(lia)) as (z & Z & V). exists z. split; [exact Z|]. rewrite (nth_repeat_lt x 96 k Hk). exact V. }
  split; [exact Ef|]. split; [split; [exact Lt|]|split; [exact Cn|]].
  - apply Forall_forall. intros c Ic. destruct (In_nth _ _ [] Ic) as (j & Hj & <-). rewrite Lt in Hj. apply Col, Hj.
  - intros j k Hj Hk. apply (proj2 (Col j Hj) k Hk).
Qed.
Lemma spells_unique w z y : spells w z -> spells w y -> z = y.
Proof. intros A B. apply read_iff in A. apply read_iff in B. rewrite A in B. apply Ok_inj, B. Qed.
Lemma parse_complete t rows : ascii_rows 14 (split_first "**ENDE**" t) = Ok rows -> (length rows = 96 \/ length rows = 1)%nat ->
  (forall j k, (j < 11)%nat -> (k < 96)%nat -> exists z, spells (cell rows j k) z) -> exists r, parse_text t = Ok r.
Proof.
  intros Er Cn S. destruct (proj1 (ascii_iff _ _ _) Er) as (_ & _ & W). rewrite Forall_forall in W.
  assert (G : forall j, In j (seq 0 11) -> exists c, get_col rows j = Ok c).
  { intros j Hj. apply in_seq in Hj. apply mapM_succeeds. intros row Ir. destruct (In_nth _ _ [] Ir) as (k & Hk & E). rewrite py_word by (rewrite (W row Ir); lia). cbn [bind].
    destruct (S j k ltac:(lia) ltac:(lia)) as (z & Z). unfold cell in Z. assert (E' : nth (if Nat.eqb (length rows) 1 then 0%nat else k) rows [] = row) by (destruct Cn as [Cn|Cn]; rewrite Cn in *; cbn [Nat.eqb]; [exact E|replace 0%nat with k by lia; exact E]).
    rewrite E' in Z. apply read_iff in Z. rewrite Z. cbn [bind]. eexists. reflexivity. }
  destruct (mapM_succeeds _ _ G) as [cols Ec]. destruct (mapM_cols _ _ Ec) as [Lc Hc]. assert (A : exists table, mapM assign_96 cols = Ok table).
  { apply mapM_succeeds. intros c Ic. destruct (In_nth _ _ [] Ic) as (j & Hj & E). rewrite Lc in Hj. pose proof (Hc j Hj) as Q. rewrite E in Q. unfold get_col in Q. destruct (mapM_at _ [] 0 _ _ Q) as [Lg _]. unfold assign_96. rewrite Lg. destruct Cn as [Cn|Cn]; rewrite Cn in *; cbn [Nat.eqb]; [eexists; reflexivity|]. destruct c as [|x [|y c]]; try discriminate Lg. eexists. reflexivity. }
  destruct A as [table Ea]. exists (alpha_lookup, table). unfold parse_text, lookup_columns. rewrite Er. cbn [bind]. change (bind (bind (mapM (get_col rows) (seq 0 11)) Ok) (fun cols => bind (mapM assign_96 cols) (fun table => Ok (alpha_lookup, table))) = Ok (alpha_lookup, table)) || change (bind (mapM (get_col rows) (seq 0 11)) (fun cols => bind (mapM assign_96 cols) (fun table => Ok (alpha_lookup, table))) = Ok (alpha_lookup, table)).
  rewrite Ec. cbn [bind]. rewrite Ea. reflexivity.
Qed.
Lemma read_format fname t s rows : s fname = Some (File (Text t)) -> lookup_format t rows -> (length rows = 96 \/ length rows = 1)%nat ->
  exists table, run (read_lookup_plain fname) s = (Ok ([7; 10; 20; 30; 32; 40; 50; 60; 70; 80; 90], table), s) /\ rect 11 96 table /\
    forall j k z, (j < 11)%nat -> (k < 96)%nat -> spells (nth (3 + j) (nth (if Nat.eqb (length rows) 1 then 0%nat else k) rows []) "") z -> elem 0 table j k = IZR z.
Proof.
  intros Hs (p & U & _ & T & W & Z) C0. assert (M : "**ENDE**" <> "") by discriminate. pose proof (upto_unique _ _ _ _ M U (first_upto _ _)) as E. subst p.
  assert (Er : ascii_rows 14 (split_first "**ENDE**" t) = Ok rows) by (apply ascii_iff; split; [exact T|]; split; [destruct rows; [cbn in C0; lia|discriminate]|exact W]).
  destruct (parse_complete t rows Er C0) as [[a tb] P]. { intros j k Hj Hk. unfold cell. destruct (Z j (if Nat.eqb (length rows) 1 then 0%nat else k) Hj) as (z & _ & Q); [destruct C0 as [C0|C0]; rewrite C0; cbn [Nat.eqb]; lia|]. exists z. exact Q. }
  destruct (parse_sound _ _ _ Er P) as (A & B & _ & D'). cbn [fst snd] in A, B, D'. exists tb. rewrite (read_parse fname s t Hs), P, A. split; [reflexivity|]. split; [exact B|]. intros j k z Hj Hk Q. destruct (D' j k Hj Hk) as (y & Y & V). rewrite V. f_equal. exact (spells_unique _ _ _ Y Q).
Qed.
Lemma read_count fname t s rows : s fname = Some (File (Text t)) -> lookup_format t rows -> length rows <> 96%nat -> length rows <> 1%nat -> exists er, run (read_lookup_plain fname) s = (Err er, s).
Proof.
  intros Hs (p & U & _ & T & W & Z) N1 N2. assert (M : "**ENDE**" <> "") by discriminate. pose proof (upto_unique _ _ _ _ M U (first_upto _ _)) as E. subst p. rewrite (read_parse fname s t Hs). destruct (parse_text t) as [r|er] eqn:P; [|exists er; reflexivity]. exfalso.
  destruct rows as [|r0 rows]; [|assert (Er : ascii_rows 14 (split_first "**ENDE**" t) = Ok (r0 :: rows)) by (apply ascii_iff; split; [exact T|]; split; [discriminate|exact W]); destruct (parse_count _ _ _ Er P); contradiction].
  unfold parse_text, lookup_columns in P. destruct (ascii_rows 14 (split_first "**ENDE**" t)) as [rows|] eqn:Er; [|discriminate]. apply ascii_iff in Er as (T' & N & _). apply N.
  destruct T as (l & a1 & P1 & _ & A1 & E1), T' as (l' & a2 & P2 & _ & A2 & E2). apply splits_unique in P1. apply splits_unique in P2. apply has_all in A1. apply has_all in A2. congruence.
Qed.
Lemma one_meaning t : (exists p, upto "**ENDE**" t p /\ forall q, upto "**ENDE**" t q -> q = p) /\ (forall rows rows', text_has t rows -> text_has t rows' -> rows = rows') /\
  forall w z y, spells w z -> spells w y -> z = y.
Proof.
  split; [exists (split_first "**ENDE**" t); split; [apply first_upto|]; intros q Q; assert (M : "**ENDE**" <> "") by discriminate; exact (upto_unique _ _ _ _ M Q (first_upto _ _))|]. split; [|exact spells_unique].
  intros rows rows' (l & a1 & P1 & _ & A1 & ->) (l' & a2 & P2 & _ & A2 & ->). apply splits_unique in P1. apply splits_unique in P2. apply has_all in A1. apply has_all in A2. congruence.
Qed.
Definition is_plain (c : ascii) : bool :=
  let n := nat_of_ascii c in ((Nat.leb 48 n && Nat.leb n 57) || (Nat.leb 65 n && Nat.leb n 90) || (Nat.leb 97 n && Nat.leb n 122) || Ascii.eqb c "-" || Ascii.eqb c " " || Nat.eqb n 10)%bool.
Lemma plain_iff c : is_plain c = true -> plain_char c.
Proof.
  unfold is_plain, plain_char. cbv zeta. rewrite !Bool.orb_true_iff, !Bool.andb_true_iff, !Nat.leb_le, !Ascii.eqb_eq, Nat.eqb_eq. tauto.
Qed.

(** ** Tables that write_lookup has written *)
Lemma body_plain z ks : Forall plain_char (chars (body z ks)).
Proof.
  assert (L : forall c, line_char c -> plain_char c).
  { intros c [[->|D]|D]; apply plain_iff; [reflexivity| |]; unfold PStr.digit in D; cbn [chars In] in D; repeat (destruct D as [<-|D]; [reflexivity|]); contradiction. }
  induction ks as [|k ks IH]; [constructor|]. rewrite body_cons, chars_app. apply Forall_app. split; [eapply Forall_impl; [exact L|apply line_chars]|]. cbn [chars]. constructor; [apply plain_iff; reflexivity|exact IH].
Qed.
Lemma chars_list s : chars s = list_ascii_of_string s.
Proof. induction s as [|c s IH]; [reflexivity|]. cbn. rewrite IH. reflexivity. Qed.
Lemma written_format z : (forall j k, (j < 11)%nat -> (k < 96)%nat -> (Z.abs (z j k) <= 2 ^ 53)%Z) ->
  exists rows, lookup_format (table_text z) rows /\ length rows = 96%nat /\ forall j k, (j < 11)%nat -> (k < 96)%nat -> spells (nth (3 + j) (nth k rows []) "") (z j k).
Proof.
  intros Hz. assert (Sp : split_first "**ENDE**" (table_text z) = body z (seq 0 96)). { unfold table_text. fold (body z (seq 0 96)). apply split_first_app, body_no_star. }
  assert (N : seq 0 96 <> []) by discriminate. pose proof (ascii_body z (seq 0 96) N) as R. apply ascii_iff in R. destruct R as (T & _ & W). assert (Ln : length (word_rows z (seq 0 96)) = 96%nat) by (unfold word_rows; rewrite map_length; apply seq_length).
  assert (Q : forall j k, (j < 11)%nat -> (k < 96)%nat -> spells (nth (3 + j) (nth k (word_rows z (seq 0 96)) []) "") (z j k)).
  { intros j k Hj Hk. unfold word_rows. rewrite (nth_indep _ [] (line_words 0 (map (fun j => z j 0%nat) (seq 0 11)))) by (rewrite map_length, seq_length; exact Hk).
    rewrite (map_nth (fun k => line_words k (map (fun j => z j k) (seq 0 11)))), seq_nth by exact Hk. pose proof (line_words_get (0 + k) (fun j => z j (0 + k)%nat) 11 j Hj) as G. rewrite py_word in G by (rewrite line_words_length, map_length, seq_length; lia). apply Ok_inj in G. rewrite G. apply read_iff, read_decZ. }
  exists (word_rows z (seq 0 96)). split; [|split; [exact Ln|exact Q]]. exists (body z (seq 0 96)). split; [rewrite <- Sp; apply first_upto|]. split; [rewrite <- chars_list; apply body_plain|]. split; [exact T|]. split; [exact W|]. intros j k Hj Hk. rewrite Ln in Hk. exists (z j k). split; [apply Hz; assumption|apply Q; assumption].
Qed.
