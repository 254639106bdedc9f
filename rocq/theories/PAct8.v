(** Damaged look-up files, failing writes, the constructor's maps. *)
From Coq Require Import String Ascii List Sorted Permutation.
From Flocq Require Import Core.Raux Core.Generic_fmt Core.Round_NE.
From Verif Require Import PyBase PyLib Num MMath MFs MAct SAct SAct2 PStr PFs PAct PAct2 PAct3 PAct5.
Import ListNotations.
Open Scope R_scope.
Open Scope string_scope.
Open Scope list_scope.
Open Scope prog_scope.

(** ** Prefixes of strings *)
Lemma sapp_split x : forall y p q, x ^^ y = p ^^ q ->
  (exists r, p = x ^^ r /\ y = r ^^ q) \/ (exists r, r <> "" /\ x = p ^^ r /\ q = r ^^ y).
Proof.
  induction x as [|c x IH]; intros y p q E.
  - left. exists p. split; [reflexivity|exact E].
  - destruct p as [|d p].
    + right. exists (String c x). split; [discriminate|]. split; [reflexivity|]. symmetry. exact E.
    + cbn [String.append] in E. injection E as -> E. destruct (IH y p q E) as [(r & -> & ->)|(r & Hr & -> & ->)].
      * left. exists r. auto.
      * right. exists r. auto.
Qed.
Lemma body_prefix z : forall ks r p q, body z ks ^^ r = p ^^ q ->
  (exists a, p = body z ks ^^ a /\ r = a ^^ q) \/
  (exists ks1 k ks2 a b, ks = ks1 ++ k :: ks2 /\ p = body z ks1 ^^ a /\ line_body k (map (fun j => z j k) (seq 0 11)) = a ^^ b).
Proof.
  induction ks as [|k ks IH]; intros r p q E.
  - left. exists p. auto.
  - rewrite body_cons, sapp_assoc in E. apply sapp_split in E. destruct E as [(a & -> & E)|(b & Hb & E & _)].
    + cbn [String.append] in E. destruct a as [|c a].
      * right. exists [], k, ks, (line_body k (map (fun j => z j k) (seq 0 11))), "". split; [reflexivity|]. cbn [body map fold_right]. rewrite !sapp_nil_r. auto.
      * cbn [String.append] in E. injection E as <- E. destruct (IH r a q E) as [(a' & -> & ->)|(ks1 & k' & ks2 & a' & b & -> & -> & E')].
        -- left. exists a'. rewrite body_cons. split; [|reflexivity]. rewrite sapp_assoc. reflexivity.
        -- right. exists (k :: ks1), k', ks2, a', b. split; [reflexivity|]. split; [|exact E']. rewrite body_cons, sapp_assoc. reflexivity.
    + right. exists [], k, ks, p, b. split; [reflexivity|]. split; [reflexivity|exact E].
Qed.

(** ** Words of a prefix *)
Lemma split_on_prefix c a : forall b, exists l w w' l', split_on c a = l ++ [w] /\ split_on c b = w' :: l' /\ split_on c (a ^^ b) = l ++ (w ^^ w') :: l'.
Proof.
  induction a as [|x a IH]; intros b.
  - assert (N : exists w' l', split_on c b = w' :: l').
    { destruct b as [|y b]; cbn [split_on]; [eauto|]. destruct (Ascii.eqb y c); [eauto|]. destruct (split_on c b); eauto. }
    destruct N as (w' & l' & E). exists [], "", w', l'. cbn [split_on String.append app]. rewrite E. auto.
  - destruct (IH b) as (l & w & w' & l' & E1 & E2 & E3). cbn [split_on String.append]. destruct (Ascii.eqb x c).
    + exists ("" :: l), w, w', l'. rewrite E1, E3. auto.
    + rewrite E1, E3. destruct l as [|v l]; cbn [app].
      * exists [], (String x w), w', l'. auto.
      * exists (String x v :: l), w, w', l'. auto.
Qed.
Lemma words_prefix a b : exists m, words a = firstn m (words (a ^^ b)) \/
  exists w r, words a = firstn m (words (a ^^ b)) ++ [w] /\ nth_error (words (a ^^ b)) m = Some (w ^^ r) /\ w <> "".
Proof.
  destruct (split_on_prefix " " a b) as (l & w & w' & l' & E1 & _ & E3). unfold words. rewrite E1, E3.
  set (f := fun w => negb (is_empty w)). exists (length (filter f l)). rewrite !filter_app.
  rewrite firstn_app, Nat.sub_diag, firstn_all, firstn_O, app_nil_r.
  destruct w as [|c w].
  - left. cbn. apply app_nil_r.
  - right. exists (String c w), w'. split; [reflexivity|]. split; [|discriminate]. rewrite nth_error_app2, Nat.sub_diag by lia. reflexivity.
Qed.
Lemma mapM_app {A B} (f : A -> res B) l l' : mapM f (l ++ l') = bind (mapM f l) (fun x => bind (mapM f l') (fun y => Ok (x ++ y))).
Proof.
  induction l as [|a l IH]; cbn [mapM app]; [destruct (mapM f l'); reflexivity|]. destruct (f a); [|reflexivity]. cbn [bind]. rewrite IH.
  destruct (mapM f l); [|reflexivity]. cbn [bind]. destruct (mapM f l'); reflexivity.
Qed.

(** ** Texts without the mark *)
Lemma starts_with_char c p s : ~ In c (chars s) -> starts_with (String c p) s = false.
Proof. destruct s as [|x s]; cbn; intros H; [reflexivity|]. destruct (Ascii.eqb_spec c x); [exfalso; auto|reflexivity]. Qed.
Lemma starts_with_long p s : (String.length s < String.length p)%nat -> starts_with p s = false.
Proof. revert s. induction p as [|c p IH]; intros [|x s] H; cbn in *; try lia. rewrite IH by lia. apply andb_false_r. Qed.
Lemma split_first_short c p b a : ~ In c (chars b) -> (String.length a < String.length (String c p))%nat -> split_first (String c p) (b ^^ a) = b ^^ a.
Proof.
  intros Hb Ha. induction b as [|x b IH].
  - cbn [String.append]. induction a as [|y a IHa]; [reflexivity|]. cbn [split_first]. rewrite (starts_with_long (String c p) (String y a)) by exact Ha. f_equal. apply IHa. cbn in *. lia.
  - cbn [String.append split_first starts_with]. cbn [chars In] in Hb. destruct (Ascii.eqb_spec c x); [exfalso; auto|]. cbn [andb]. f_equal. apply IH. auto.
Qed.
Lemma split_first_none c p s : ~ In c (chars s) -> split_first (String c p) s = s.
Proof. intros H. rewrite <- (sapp_nil_r s). apply split_first_short; [exact H|cbn; lia]. Qed.
Lemma chars_incl_app a b c : In c (chars a) -> In c (chars (a ^^ b)).
Proof. rewrite chars_app. intros H. apply in_or_app. auto. Qed.

(** Reading whole lines followed by the beginning of another one. *)
Definition row_of (z : nat -> nat -> Z) (k : nat) : list string := line_words k (map (fun j => z j k) (seq 0 11)).
Lemma rows_filter z ks : filter (fun r : list string => negb (Nat.eqb (length r) 0)) (map words (map (fun k => line_body k (map (fun j => z j k) (seq 0 11))) ks)) = word_rows z ks.
Proof.
  rewrite map_map. assert (E : map (fun k => words (line_body k (map (fun j => z j k) (seq 0 11)))) ks = word_rows z ks) by (apply map_ext; intros; apply words_line).
  rewrite E. apply filter_true. intros r Hr. unfold word_rows in Hr. apply in_map_iff in Hr. destruct Hr as (x & <- & _). rewrite line_words_length. reflexivity.
Qed.
Lemma rows_14 z ks : forallb (fun r : list string => Nat.eqb (length r) 14) (word_rows z ks) = true.
Proof. apply forallb_map_true. intros x _. rewrite line_words_length, map_length, seq_length. reflexivity. Qed.
Lemma ascii_partial z ks a : ks <> [] -> ~ In nl (chars a) ->
  ascii_rows 14 (body z ks ^^ a) = match words a with
    | [] => Ok (word_rows z ks)
    | ws => if Nat.eqb (length ws) 14 then Ok (word_rows z ks ++ [ws]) else Err ValueError
    end.
Proof.
  intros Hk Ha. unfold ascii_rows. rewrite split_body, (split_on_none nl a) by exact Ha.
  destruct ks as [|k ks]; [congruence|]. set (L := map (fun k => line_body k _) (k :: ks)).
  assert (E : exists x b c, L ++ [a] = x :: b :: c). { subst L. cbn [map app]. destruct (map _ ks ++ [a]) eqn:E; [destruct (map _ ks); discriminate|]. eauto. }
  destruct E as (x & b & c & E). rewrite E. rewrite <- E. clear E x b c. rewrite map_app, filter_app. subst L. rewrite rows_filter.
  cbn [map filter]. destruct (words a) as [|w ws] eqn:Ew; cbn [length Nat.eqb negb].
  - rewrite app_nil_r, rows_14. reflexivity.
  - rewrite forallb_app, rows_14. cbn [forallb andb length]. rewrite andb_true_r. 
    destruct (word_rows z (k :: ks) ++ [w :: ws]) eqn:E; [destruct (word_rows z (k :: ks)); discriminate|]. rewrite <- E. reflexivity.
Qed.

Definition get_col (rows : list (list string)) (j : nat) : res (list R) :=
  mapM (fun row => bind (py_get row (3 + j)) (fun w => bind (read_int w) (fun z => Ok (IZR z)))) rows.
Lemma get_col_rows z ks j : (j < 11)%nat -> get_col (word_rows z ks) j = Ok (map (fun k => IZR (z j k)) ks).
Proof.
  intros Hj. unfold get_col, word_rows. induction ks as [|k ks IH]; [reflexivity|]. cbn [map mapM].
  rewrite (line_words_get k (fun j => z j k) 11 j Hj). cbn [bind]. rewrite read_decZ. cbn [bind]. rewrite IH. reflexivity.
Qed.
Lemma mapM_cols rows cols : mapM (get_col rows) (seq 0 11) = Ok cols ->
  length cols = 11%nat /\ forall j, (j < 11)%nat -> get_col rows j = Ok (nth j cols []).
Proof.
  intros H. split; [rewrite (mapM_length _ _ _ H), seq_length; reflexivity|]. intros j Hj.
  apply mapM_Forall2 in H. assert (G : forall l r d i, Forall2 (fun x y => get_col rows x = Ok y) l r -> (i < length l)%nat -> get_col rows (nth i l d) = Ok (nth i r [])).
  { clear. intros l r d i F. revert i. induction F; intros i Hi; cbn in Hi; [lia|]. destruct i; cbn [nth]; [assumption|]. apply IHF. lia. }
  specialize (G _ _ 0%nat j H). rewrite seq_length, seq_nth in G by exact Hj. exact (G Hj).
Qed.
Lemma assign_cols cols table : mapM assign_96 cols = Ok table -> Forall (fun c => length c = 96%nat) cols -> table = cols.
Proof.
  revert table. induction cols as [|c cols IH]; intros table H F; cbn [mapM] in H; [injection H as <-; reflexivity|].
  inversion F as [|? ? Hc F']; subst. unfold assign_96 in H at 1. rewrite Hc in H. cbn [Nat.eqb bind] in H.
  destruct (mapM assign_96 cols) as [t|] eqn:E; [|discriminate]. cbn [bind] in H. injection H as <-. f_equal. apply IH; auto.
Qed.
Lemma assign_bad c cols : length c <> 96%nat -> length c <> 1%nat -> exists e, mapM assign_96 (c :: cols) = Err e.
Proof.
  intros H1 H2. cbn [mapM]. unfold assign_96 at 1. destruct (Nat.eqb_spec (length c) 96); [congruence|].
  destruct c as [|x [|y c]]; [eexists; reflexivity|cbn in H2; congruence|eexists; reflexivity].
Qed.

Definition parse_text (s : string) : res (list R * list (list R)) :=
  bind (lookup_columns s) (fun cols => bind (mapM assign_96 cols) (fun table => Ok (alpha_lookup, table))).
Lemma read_parse fname s t : s fname = Some (File (Text t)) -> run (read_lookup_plain fname) s = (parse_text t, s).
Proof.
  intros H. unfold read_lookup_plain, read_text. rewrite run_bind, run_bind, run_callE. cbn [exec fst snd]. rewrite H. cbn [fst snd run]. rewrite run_lift. reflexivity.
Qed.
Lemma parse_rows t rows r : ascii_rows 14 (split_first "**ENDE**" t) = Ok rows -> parse_text t = Ok r ->
  exists cols, mapM (get_col rows) (seq 0 11) = Ok cols /\ mapM assign_96 cols = Ok (snd r) /\ fst r = alpha_lookup.
Proof.
  intros Er H. unfold parse_text, lookup_columns in H. rewrite Er in H. cbn [bind] in H. fold (get_col rows) in H.
  change (mapM (fun j => mapM (fun row => bind (py_get row (3 + j)) (fun w => bind (read_int w) (fun z => Ok (IZR z)))) rows) (seq 0 11)) with (mapM (get_col rows) (seq 0 11)) in H.
  destruct (mapM (get_col rows) (seq 0 11)) as [cols|]; [|discriminate]. cbn [bind] in H. destruct (mapM assign_96 cols) as [t'|] eqn:E; [|discriminate].
  cbn [bind] in H. injection H as <-. exists cols. auto.
Qed.

(** Rows that agree with the table, except for the last word of the last one. *)
Lemma parse_good z t rows r : ascii_rows 14 (split_first "**ENDE**" t) = Ok rows -> parse_text t = Ok r ->
  (forall j, (j < 11)%nat -> exists l, get_col rows j = Err l \/ exists c, get_col rows j = Ok c /\ length c = 96%nat /\ forall k, (k < 96)%nat -> (j, k) <> (10, 95)%nat -> nth k c 0 = IZR (z j k)) ->
  fst r = alpha_lookup /\ rect 11 96 (snd r) /\ forall j k, (j < 11)%nat -> (k < 96)%nat -> (j, k) <> (10, 95)%nat -> elem 0 (snd r) j k = IZR (z j k).
Proof.
  intros Er H G. destruct (parse_rows _ _ _ Er H) as (cols & Ec & Ea & Ef). destruct (mapM_cols _ _ Ec) as [Lc Hc].
  assert (F : Forall (fun c => length c = 96%nat) cols).
  { apply Forall_nth. intros j d Hj. rewrite Lc in Hj. destruct (G j Hj) as (l & [E|(c & E & Lc' & _)]); rewrite (Hc j Hj) in E; [discriminate|].
    apply Ok_inj in E. rewrite (nth_indep cols d []) by lia. rewrite E. exact Lc'. }
  apply assign_cols in Ea; [|exact F]. rewrite Ea. split; [exact Ef|]. split; [split; assumption|].
  intros j k Hj Hk N. unfold elem. destruct (G j Hj) as (l & [E|(c & E & _ & V)]); rewrite (Hc j Hj) in E; [discriminate|]. apply Ok_inj in E. rewrite E. auto.
Qed.
Lemma parse_count t rows r : ascii_rows 14 (split_first "**ENDE**" t) = Ok rows -> parse_text t = Ok r -> length rows = 96%nat \/ length rows = 1%nat.
Proof.
  intros Er H. destruct (parse_rows _ _ _ Er H) as (cols & Ec & Ea & _). destruct (mapM_cols _ _ Ec) as [Lc Hc].
  pose proof (Hc 0%nat ltac:(lia)) as E. apply mapM_length in E. destruct cols as [|c cols]; [discriminate|]. cbn [nth] in E.
  destruct (Nat.eq_dec (length c) 96); [left; congruence|]. destruct (Nat.eq_dec (length c) 1); [right; congruence|].
  destruct (assign_bad c cols n n0) as (e & E'). congruence.
Qed.

Definition agrees (z : nat -> nat -> Z) (r : list R * list (list R)) : Prop :=
  fst r = alpha_lookup /\ rect 11 96 (snd r) /\ forall j k, (j < 11)%nat -> (k < 96)%nat -> (j, k) <> (10, 95)%nat -> elem 0 (snd r) j k = IZR (z j k).
Lemma parse_body z t r : split_first "**ENDE**" t = body z (seq 0 96) -> parse_text t = Ok r -> agrees z r.
Proof.
  intros E H. apply (parse_good z t (word_rows z (seq 0 96))); [rewrite E; apply ascii_body; discriminate|exact H|].
  intros j Hj. exists TypeError. right. exists (map (fun k => IZR (z j k)) (seq 0 96)). split; [apply get_col_rows; exact Hj|]. split; [rewrite map_length; apply seq_length|].
  intros k Hk _. rewrite (nth_indep _ 0 (IZR (z j 0%nat))) by (rewrite map_length, seq_length; exact Hk). rewrite (map_nth (fun k => IZR (z j k)) (seq 0 96) 0%nat k), seq_nth by exact Hk. reflexivity.
Qed.

Lemma truncated_text z p q r : table_text z = p ^^ q -> q <> "" -> parse_text p = Ok r ->
  agrees z r \/ (p = table_line 0 (map (fun j => z j 0%nat) (seq 0 11)) /\ fst r = alpha_lookup /\ rect 11 96 (snd r) /\
                 forall j k, (j < 11)%nat -> (k < 96)%nat -> elem 0 (snd r) j k = IZR (z j 0%nat)).
Proof.
  intros E Hq H. change (table_text z) with (body z (seq 0 96) ^^ ("**ENDE**" ^^ String nl "")) in E. apply body_prefix in E. destruct E as [(a & Ep & Ea)|(ks1 & k & ks2 & a & b & Ek & Ep & El)].
  - (* inside the mark *)
    left. destruct a as [|c1 a].
    { rewrite sapp_nil_r in Ep. apply (parse_body z p); [|exact H]. subst p. apply split_first_none. apply body_no_star. }
    destruct (Nat.le_gt_cases 8 (String.length (String c1 a))) as [L|L].
    + assert (E8 : exists t, String c1 a = "**ENDE**" ^^ t).
      { pose proof (f_equal (String.substring 0 8) Ea) as E. clear - E L Ea.
        destruct (sapp_split "**ENDE**" (String nl "") (String c1 a) q Ea) as [(r & E1 & _)|(r & Hr & E1 & _)]; [eauto|].
        exfalso. apply (f_equal String.length) in E1. rewrite slength_app in E1. destruct r; [congruence|]. cbn [String.length] in E1, L. lia. }
      destruct E8 as (t & E8). rewrite E8 in Ep. apply (parse_body z p); [|exact H]. subst p. apply (split_first_app "*" "*ENDE**"). apply body_no_star.
    + exfalso. unfold parse_text, lookup_columns in H. subst p. rewrite (split_first_short "*" "*ENDE**" (body z (seq 0 96)) (String c1 a)) in H; [|apply body_no_star|exact L].
      assert (Hc : forall c, In c (chars (String c1 a)) -> c <> nl /\ c <> " "%char).
      { destruct (sapp_split "**ENDE**" (String nl "") (String c1 a) q Ea) as [(r' & E1 & _)|(r' & _ & E1 & _)].
        - exfalso. rewrite E1, slength_app in L. cbn [String.length] in L. lia.
        - intros c Hc. apply (chars_incl_app _ r') in Hc. rewrite <- E1 in Hc. split; intros ->; cbn in Hc; repeat (destruct Hc as [Hc|Hc]; [discriminate|]); exact Hc. }
      rewrite ascii_partial in H; [|discriminate|intros N; exact (proj1 (Hc _ N) eq_refl)].
      rewrite (words_one (String c1 a)) in H; [|split; [discriminate|intros N; exact (proj2 (Hc _ N) eq_refl)]]. discriminate H.
  - assert (Hl := line_chars k (map (fun j => z j k) (seq 0 11))). rewrite El, chars_app, Forall_app in Hl. destruct Hl as [Ha _].
    assert (Na : ~ In nl (chars a)) by (intros N; rewrite Forall_forall in Ha; exact (not_line_char nl (or_introl eq_refl) (Ha _ N))).
    assert (Ns : ~ In "*"%char (chars a)) by (intros N; rewrite Forall_forall in Ha; exact (not_line_char "*" (or_intror eq_refl) (Ha _ N))).
    assert (Es : split_first "**ENDE**" p = p). { apply (split_first_none "*"). rewrite Ep, chars_app, in_app_iff. intros [N|N]; [exact (body_no_star z ks1 N)|exact (Ns N)]. }
    destruct ks1 as [|k0 ks1].
    { exfalso. unfold parse_text, lookup_columns in H. rewrite Es, Ep in H. change (body z [] ^^ a) with a in H. unfold ascii_rows in H. fold nl in H. rewrite (split_on_none nl a Na) in H. discriminate H. }
    assert (Lk : (length (k0 :: ks1) < 96)%nat /\ k0 = 0%nat /\ k :: ks2 = skipn (length (k0 :: ks1)) (seq 0 96) /\ k0 :: ks1 = firstn (length (k0 :: ks1)) (seq 0 96)).
    { pose proof (f_equal (@length nat) Ek) as L. rewrite app_length, seq_length in L. cbn [length] in L |- *. split; [lia|]. split; [cbn [app] in Ek; change (seq 0 96) with (0%nat :: seq 1 95) in Ek; injection Ek as <- _; reflexivity|].
      rewrite Ek. change (S (length ks1)) with (length (k0 :: ks1)). split; [rewrite skipn_app, skipn_all, Nat.sub_diag; reflexivity|rewrite firstn_app, Nat.sub_diag, firstn_O, app_nil_r, firstn_all; reflexivity]. }
    destruct Lk as (Lk & Ek0 & Ek2 & Ek1).
    destruct (ascii_rows 14 p) as [rows|e] eqn:Er; [|exfalso; unfold parse_text, lookup_columns in H; rewrite Es, Er in H; discriminate H].
    rewrite <- Es in Er. pose proof (parse_count _ _ _ Er H) as Cnt. pose proof Er as Er'. rewrite Es, Ep, ascii_partial in Er; [|discriminate|exact Na].
    assert (Lr : length (word_rows z (k0 :: ks1)) = length (k0 :: ks1)) by (unfold word_rows; apply map_length).
    destruct (words a) as [|w ws] eqn:Ew.
    + apply Ok_inj in Er. destruct Cnt as [Cnt|Cnt]; [rewrite <- Er, Lr in Cnt; exfalso; lia|]. right.
      rewrite <- Er, Lr in Cnt. destruct ks1; [|discriminate Cnt]. subst k0.
      assert (Aa : a = "").
      { destruct a as [|c a]; [reflexivity|]. exfalso. unfold line_body in El. cbn [String.append] in El. injection El as <- El. clear - Ew.
        destruct (split_on_prefix " " (String "N" "") a) as (l & w & w' & l' & E1 & E2 & E3). cbn in E1. destruct l as [|? [|]]; try discriminate. injection E1 as <-.
        unfold words in Ew. change (String "N" a) with (String "N" "" ^^ a) in Ew. rewrite E3 in Ew. discriminate Ew. }
      subst a. rewrite sapp_nil_r in Ep. split; [rewrite Ep; unfold body; cbn [map fold_right]; apply sapp_nil_r|].
      destruct (parse_rows _ _ _ Er' H) as (cols & Ec & Ea & Ef). rewrite <- Er in Ec. destruct (mapM_cols _ _ Ec) as [Lc Hc]. split; [exact Ef|].
      assert (Et : snd r = map (fun j => repeat (IZR (z j 0%nat)) 96) (seq 0 11)).
      { assert (Ecols : cols = map (fun j => [IZR (z j 0%nat)]) (seq 0 11)).
        { apply nth_ext with (d := []) (d' := [IZR (z 0%nat 0%nat)]); [rewrite map_length, seq_length; exact Lc|]. intros j Hj. rewrite Lc in Hj.
          rewrite (map_nth (fun j => [IZR (z j 0%nat)]) (seq 0 11) 0%nat j), seq_nth by exact Hj. specialize (Hc j Hj). rewrite get_col_rows in Hc by exact Hj. apply Ok_inj in Hc. symmetry. exact Hc. }
        rewrite Ecols in Ea. clear - Ea. revert Ea. generalize (snd r). generalize (seq 0 11). induction l as [|x l IH]; intros t E; cbn [map mapM] in E |- *; [apply Ok_inj in E; auto|].
        cbn [assign_96 length Nat.eqb bind] in E. destruct (mapM assign_96 (map (fun j => [IZR (z j 0%nat)]) l)) as [t'|] eqn:E'; [|discriminate]. cbn [bind] in E. apply Ok_inj in E. rewrite <- E. f_equal. apply IH. reflexivity. }
      rewrite Et. split; [split; [rewrite map_length; reflexivity|apply Forall_map; apply Forall_forall; intros; apply repeat_length]|].
      intros j k' Hj Hk. unfold elem. rewrite (nth_indep _ [] (repeat (IZR (z 0%nat 0%nat)) 96)) by (rewrite map_length, seq_length; exact Hj).
      rewrite (map_nth (fun j => repeat (IZR (z j 0%nat)) 96) (seq 0 11) 0%nat j), seq_nth by exact Hj. apply (repeat_spec 96). apply nth_In. rewrite repeat_length. exact Hk.
    + cbv zeta in Er. destruct (Nat.eqb (length (w :: ws)) 14) eqn:L14; [apply Nat.eqb_eq in L14|discriminate Er]. apply Ok_inj in Er. left.
      destruct Cnt as [Cnt|Cnt]; rewrite <- Er, app_length, Lr in Cnt; cbn [length] in Cnt, Lk; [|exfalso; lia].
      assert (L95 : length (k0 :: ks1) = 95%nat) by (cbn [length]; lia). rewrite L95 in Ek1, Ek2. change (skipn 95 (seq 0 96)) with [95%nat] in Ek2. injection Ek2 as -> ->.
      change (firstn 95 (seq 0 96)) with (seq 0 95) in Ek1.
      apply (parse_good z p rows r Er' H). intros j Hj. destruct (get_col rows j) as [c|e] eqn:Ecol; [|exists e; auto]. exists TypeError. right. exists c. split; [reflexivity|].
      split; [apply mapM_length in Ecol; rewrite Ecol, <- Er, app_length, Lr, L95; reflexivity|].
      rewrite <- Er in Ecol. unfold get_col in Ecol. rewrite mapM_app in Ecol. fold (get_col (word_rows z (k0 :: ks1)) j) in Ecol. rewrite Ek1, get_col_rows in Ecol by exact Hj. cbn [bind mapM] in Ecol.
      destruct (bind (py_get (w :: ws) (3 + j)) _) as [v|] eqn:Ev; [|discriminate Ecol]. cbn [bind] in Ecol. apply Ok_inj in Ecol. subst c.
      intros k' Hk' Nk. destruct (Nat.eq_dec k' 95) as [->|].
      * rewrite app_nth2, map_length, seq_length by (rewrite map_length, seq_length; lia). cbn [Nat.sub nth].
        assert (Hj10 : (j < 10)%nat) by (destruct (Nat.eq_dec j 10); [subst; congruence|lia]).
        assert (Eg : py_get (w :: ws) (3 + j) = Ok (decZ (z j 95%nat))).
        { destruct (words_prefix a b) as (m & C). rewrite Ew, <- El, words_line in C.
          assert (Lm : exists l', w :: ws = firstn 13 (line_words 95 (map (fun j => z j 95%nat) (seq 0 11))) ++ l').
          { assert (Ll : length (line_words 95 (map (fun j => z j 95%nat) (seq 0 11))) = 14%nat) by (rewrite line_words_length, map_length, seq_length; reflexivity).
            set (L := line_words _ _) in *. destruct C as [C|(w1 & r1 & C & _ & _)].
            - rewrite C in L14 |- *. rewrite firstn_length in L14. exists (skipn 13 (firstn m L)). rewrite <- (firstn_skipn 13 (firstn m L)) at 1. f_equal. rewrite firstn_firstn. f_equal. lia.
            - rewrite C in L14 |- *. rewrite app_length, firstn_length in L14. cbn [length] in L14. exists ([w1]). f_equal. f_equal. lia. }
          destruct Lm as (l' & Lm). rewrite Lm. rewrite <- (line_words_get 95 (fun j => z j 95%nat) 11 j Hj).
          unfold py_get. set (L := line_words _ _) in *. assert (Ll : length L = 14%nat) by (subst L; rewrite line_words_length, map_length, seq_length; reflexivity).
          rewrite nth_error_app1 by (rewrite firstn_length; lia). assert (Hn : nth_error L (3 + j) = nth_error (firstn 13 L) (3 + j)).
          { rewrite <- (firstn_skipn 13 L) at 1. apply nth_error_app1. rewrite firstn_length. lia. }
          rewrite Hn. reflexivity. }
        rewrite Eg in Ev. cbn [bind] in Ev. rewrite read_decZ in Ev. cbn [bind] in Ev. apply Ok_inj in Ev. symmetry. exact Ev.
      * rewrite app_nth1 by (rewrite map_length, seq_length; lia). rewrite (nth_indep _ 0 (IZR (z j 0%nat))) by (rewrite map_length, seq_length; lia).
        rewrite (map_nth (fun k => IZR (z j k)) (seq 0 95) 0%nat k'), seq_nth by lia. reflexivity.
Qed.

(** ** Runs *)
Lemma truncated fname z p q s alphas table s' : table_text z = p ^^ q -> q <> "" -> s fname = Some (File (Text p)) ->
  run (read_lookup_plain fname) s = (Ok (alphas, table), s') ->
  s' = s /\ alphas = [7; 10; 20; 30; 32; 40; 50; 60; 70; 80; 90] /\ rect 11 96 table /\
  ((forall j k, (j < 11)%nat -> (k < 96)%nat -> (j, k) <> (10, 95)%nat -> elem 0 table j k = IZR (z j k)) \/
   (p = table_line 0 (map (fun j => z j 0%nat) (seq 0 11)) /\ forall j k, (j < 11)%nat -> (k < 96)%nat -> elem 0 table j k = IZR (z j 0%nat))).
Proof.
  intros E Hq H R. rewrite (read_parse _ _ _ H) in R. injection R as R ->. split; [reflexivity|].
  destruct (truncated_text z p q _ E Hq R) as [(A & B & C)|(A & B & C & D)]; cbn [fst snd] in *; auto.
Qed.
Lemma unwritten fname s : s fname = Some (File Partial) -> run (read_lookup_plain fname) s = (Err FileNotFoundError, s).
Proof. intros H. unfold read_lookup_plain, read_text. rewrite run_bind, run_bind, run_callE. cbn [exec fst snd]. rewrite H. cbn [fst snd run]. rewrite run_lift. reflexivity. Qed.

Definition stored (o : actuator) (T : list (list num)) (j k : nat) : Z := np_int (between (ac_min o) (ac_max o) (elem NaN T j k)).
Lemma write_succeeds sp o fname a T s : lookup_input sp o a T -> rect 11 96 T -> ac_min o <= ac_max o ->
  s (parent fname) = Some Dir -> s fname <> Some Dir ->
  exists s', run (write_lookup sp o fname a) s = (Ok tt, s') /\ forall p, p <> fname -> s' p = s p.
Proof.
  intros HT Hr Hl Hp Hd. eexists. rewrite (write_lookup_run sp o fname a T s HT Hr Hl). cbn [exec].
  destruct (s fname) as [[| d]|]; [congruence| |rewrite Hp]; cbn [fst]; (split; [reflexivity|]; intros p N; apply upd_other; congruence).
Qed.
Lemma write_fails sp o fname a T s : lookup_input sp o a T -> rect 11 96 T -> ac_min o <= ac_max o ->
  s fname = Some Dir \/ (s fname = None /\ s (parent fname) <> Some Dir) ->
  exists e, run (write_lookup sp o fname a) s = (Err e, s).
Proof.
  intros HT Hr Hl Hd. rewrite (write_lookup_run sp o fname a T s HT Hr Hl). cbn [exec].
  destruct Hd as [->|[-> Hp]]; [eexists; reflexivity|]. destruct (s (parent fname)) as [[|]|]; [congruence| |]; eexists; reflexivity.
Qed.
Lemma nan_written sp o fname a T s s' j k : lookup_input sp o a T -> rect 11 96 T -> ac_min o <= ac_max o -> (j < 11)%nat -> (k < 96)%nat ->
  elem NaN T j k = NaN -> run (write_lookup sp o fname a) s = (Ok tt, s') ->
  exists table, run (read_lookup_plain fname) s' = (Ok (alpha_lookup, table), s') /\ elem 0 table j k = - 9223372036854775808.
Proof.
  intros HT Hr Hl Hj Hk E R. apply (run_write_inv sp o fname a T s s' HT Hr Hl) in R.
  eexists. split; [apply read_lookup_run; rewrite R; apply upd_same|].
  unfold elem. erewrite nth_map_lt with (d := 0%nat) by (rewrite seq_length; exact Hj). erewrite nth_map_lt with (d := 0%nat) by (rewrite seq_length; exact Hk).
  rewrite !seq_nth by assumption. cbn [Nat.add]. unfold elem in E. rewrite E. cbn [between np_int]. change (- 2 ^ 63)%Z with (- 9223372036854775808)%Z. reflexivity.
Qed.

Lemma fraction_written sp fname s s' o : ac_min o = - (6 / 10) -> ac_max o = 6 / 10 ->
  run (write_lookup sp o fname (Map2 (map (fun _ => map (fun _ => Fin 1) (seq 0 96)) (seq 0 11)))) s = (Ok tt, s') ->
  exists table, run (read_lookup_plain fname) s' = (Ok (alpha_lookup, table), s') /\ elem 0 table 0 0 = 1 /\ ac_max o < 1.
Proof.
  intros Hmin Hmax R. set (T := map _ _) in R.
  assert (HT : rect 11 96 T) by (split; [reflexivity|]; apply Forall_map, Forall_forall; intros; rewrite map_length; apply seq_length).
  destruct (write_read sp o fname T s s' HT ltac:(lra) R) as (table & Rd & Rt & V). exists table. split; [exact Rd|]. split; [|lra].
  destruct (V 0%nat 0%nat 1 ltac:(lia) ltac:(lia) eq_refl) as (z & -> & Hz). assert (Ez : z = 1%Z); [|rewrite Ez; reflexivity].
  apply (rounded_unique _ _ _ Hz). left. rewrite Hmin, Hmax. rewrite Rmin_left, Rmax_right by lra. unfold Rabs. destruct Rcase_abs; lra.
Qed.

(** A table with too few columns: the exception comes after the lines that could be written. *)
Lemma lookup_lines_short T n : rect 11 n T -> (n < 96)%nat -> forall m k0 acc, (k0 <= n)%nat -> (k0 + m = 96)%nat ->
  lookup_lines T (seq k0 m) acc = (acc ^^ body (written T) (seq k0 (n - k0)), Err IndexError).
Proof.
  intros HT Hn. induction m as [|m IH]; intros k0 acc Hk E; [lia|]. cbn [seq lookup_lines]. unfold lookup_line.
  destruct (Nat.eq_dec k0 n) as [->|Nk].
  - assert (Hg : exists row T', T = row :: T' /\ py_get row n = Err IndexError).
    { destruct HT as [L F]. destruct T as [|row T']; [discriminate|]. inversion F; subst. exists row, T'. split; [reflexivity|]. unfold py_get. rewrite (proj2 (nth_error_None row _)) by lia. reflexivity. }
    destruct Hg as (row & T' & -> & Eg). cbn [mapM]. rewrite Eg. cbn [bind]. rewrite Nat.sub_diag. cbn [seq body map fold_right]. rewrite sapp_nil_r. reflexivity.
  - assert (Hg : mapM (fun row => py_get row k0) T = Ok (map (fun row => nth k0 row NaN) T)).
    { destruct HT as [_ F]. clear - F Hk Nk. induction F as [|row T' Hr F IH]; [reflexivity|]. cbn [mapM map]. rewrite (py_get_ok row k0 NaN) by lia. cbn [bind]. rewrite IH. reflexivity. }
    rewrite Hg. cbn [bind]. rewrite IH by lia. f_equal. replace (n - k0)%nat with (S (n - S k0)) by lia. cbn [seq]. rewrite body_cons.
    rewrite sapp_assoc. f_equal. unfold line_body. rewrite !sapp_assoc. do 3 f_equal. f_equal.
    unfold join2. f_equal. rewrite map_map. assert (Em : map (fun x => decZ (np_int (nth k0 x NaN))) T = map decZ (map (fun j => written T j k0) (seq 0 11))).
    { rewrite map_map. apply nth_ext with (d := decZ (np_int (nth k0 [] NaN))) (d' := decZ (written T 0%nat k0)); [rewrite !map_length, seq_length; apply HT|].
      intros j Hj. rewrite map_length in Hj. rewrite (map_nth (fun x => decZ (np_int (nth k0 x NaN))) T [] j).
      rewrite (map_nth (fun j => decZ (written T j k0)) (seq 0 11) 0%nat j), seq_nth by (destruct HT as [L _]; congruence). reflexivity. }
    rewrite Em. reflexivity.
Qed.
Lemma body_app z l l' : body z (l ++ l') = body z l ^^ body z l'.
Proof. induction l as [|k l IH]; [reflexivity|]. cbn [app]. rewrite !body_cons, IH, sapp_assoc. reflexivity. Qed.
Lemma short_table sp o fname T n s : rect 11 n T -> (n < 96)%nat -> s (parent fname) = Some Dir -> s fname <> Some Dir ->
  exists s' text z, run (write_lookup sp o fname (Map2 T)) s = (Err IndexError, s') /\ s' fname = Some (File (Text text)) /\
    (forall p, p <> fname -> s' p = s p) /\ (exists q, table_text z = text ^^ q /\ q <> "") /\
    text = fold_right String.append "" (map (fun k => table_line k (map (fun j => z j k) (seq 0 11))) (seq 0 n)).
Proof.
  intros HT Hn Hp Hd. set (T' := map2d (limit (ac_min o) (ac_max o)) T).
  exists (upd s fname (File (Text (body (written T') (seq 0 n))))), (body (written T') (seq 0 n)), (written T').
  split; [|split; [apply upd_same|split; [intros p N; apply upd_other; congruence|split; [|reflexivity]]]].
  - unfold write_lookup. rewrite run_bind, run_lift, run_bind, run_callE. cbn [exec].
    assert (E : lookup_lines T' (seq 0 96) "" = (body (written T') (seq 0 n), Err IndexError)).
    { rewrite (lookup_lines_short T' n (rect_map2d _ _ _ _ HT) Hn 96 0 "") by lia. rewrite Nat.sub_0_r. reflexivity. }
    fold T'. destruct (s fname) as [[|d]|]; [congruence| |rewrite Hp]; cbn [fst snd]; rewrite E; rewrite run_bind, run_call; cbn [exec fst snd]; rewrite run_lift; rewrite upd_upd, upd_same; reflexivity.
  - change (table_text (written T')) with (body (written T') (seq 0 96) ^^ ("**ENDE**" ^^ String nl "")).
    assert (Es : seq 0 96 = seq 0 n ++ seq n (96 - n)) by (rewrite <- seq_app; f_equal; lia).
    exists (body (written T') (seq n (96 - n)) ^^ ("**ENDE**" ^^ String nl "")). split.
    + rewrite Es, body_app, sapp_assoc. reflexivity.
    + intros N. apply (f_equal String.length) in N. rewrite slength_app in N. cbn in N. lia.
Qed.

(** ** What the constructor derives *)
Lemma meshgrid_elem x : rect (length x) (length x) (meshgrid x x) /\ forall j i, (j < length x)%nat -> (i < length x)%nat -> elem (0, 0) (meshgrid x x) j i = (nth i x 0, nth j x 0).
Proof.
  split.
  - unfold meshgrid. split; [apply map_length|]. rewrite Forall_map, Forall_forall. intros; apply map_length.
  - intros j i Hj Hi. unfold elem, meshgrid. rewrite (nth_map_lt _ x j 0), (nth_map_lt _ x i 0) by assumption. reflexivity.
Qed.
Lemma init_maps gd o fname z s : s fname = Some (File (Text (table_text z))) ->
  exists maps, run (act_init gd o fname) s = (Ok (alpha_lookup, maps, transform o (Map3 (map (map2d Fin) maps))), s) /\ length maps = 11%nat /\
  forall a, (a < 11)%nat -> rect (ac_resolution o) (ac_resolution o) (nth a maps []) /\
    forall j i, (j < ac_resolution o)%nat -> (i < ac_resolution o)%nat ->
      let x := nth i (linspace (- ac_sr o) (ac_sr o) (ac_resolution o)) 0 in
      let y := nth j (linspace (- ac_sr o) (ac_sr o) (ac_resolution o)) 0 in
      elem 0 (nth a maps []) j i = if Rle_dec (ac_sr o ^ 2) (x ^ 2 + y ^ 2) then 0
        else nan_to_num (gd (combine act_x act_y) (map (fun k => IZR (z a k)) (seq 0 96)) (x, y)).
Proof.
  intros H. set (one := fun col => map2d (fun '(xx, yy) => if Rleb (ac_sr o ^ 2) (xx ^ 2 + yy ^ 2) then 0 else nan_to_num (gd (combine act_x act_y) col (xx, yy)))
          (meshgrid (linspace (- ac_sr o) (ac_sr o) (ac_resolution o)) (linspace (- ac_sr o) (ac_sr o) (ac_resolution o)))).
  assert (Hone : forall col, length col = 96%nat -> interp_map gd o col = Ok (one col)) by (intros col L; unfold interp_map; rewrite L, act_x_length; reflexivity).
  assert (Hm : mapM (interp_map gd o) (columns z (seq 0 96)) = Ok (map one (columns z (seq 0 96)))).
  { unfold columns. induction (seq 0 11) as [|j l IH]; [reflexivity|]. cbn [map mapM]. rewrite Hone by (rewrite map_length; apply seq_length). cbn [bind]. rewrite IH. reflexivity. }
  exists (map one (columns z (seq 0 96))). split.
  - unfold act_init, read_lookup_interp, read_text. rewrite !run_bind, run_callE. cbn [exec fst snd]. rewrite H. cbn [fst snd run]. rewrite run_lift, lookup_of_text. cbn [bind]. rewrite Hm. reflexivity.
  - split; [unfold columns; rewrite !map_length; reflexivity|]. intros a Ha.
    assert (Ea : nth a (map one (columns z (seq 0 96))) [] = one (map (fun k => IZR (z a k)) (seq 0 96))).
    { unfold columns. rewrite map_map. rewrite (nth_map_lt _ (seq 0 11) a 0%nat) by (rewrite seq_length; exact Ha). rewrite seq_nth by exact Ha. reflexivity. }
    rewrite Ea. unfold one. destruct (meshgrid_elem (linspace (- ac_sr o) (ac_sr o) (ac_resolution o))) as [Rm Em]. rewrite linspace_length in Rm, Em.
    split; [apply rect_map2d; exact Rm|]. intros j i Hj Hi. cbv zeta. rewrite (elem_map2d' _ (0, 0) 0 (ac_resolution o) (ac_resolution o)) by assumption. rewrite (Em j i Hj Hi).
    destruct (Rle_dec _ _) as [L|L]; destruct (Rleb_spec (ac_sr o ^ 2) (nth i (linspace (- ac_sr o) (ac_sr o) (ac_resolution o)) 0 ^ 2 + nth j (linspace (- ac_sr o) (ac_sr o) (ac_resolution o)) 0 ^ 2)); try reflexivity; lra.
Qed.

(** ** Sorting, contour levels *)
Lemma insert_perm x l : Permutation (insert x l) (x :: l).
Proof. induction l as [|y l IH]; cbn [insert]; [reflexivity|]. destruct (Rleb x y); [reflexivity|]. rewrite IH. apply perm_swap. Qed.
Lemma insert_sorted x l : Sorted Rle l -> Sorted Rle (insert x l).
Proof.
  induction l as [|y l IH]; intros S; cbn [insert]; [repeat constructor|]. destruct (Rleb_spec x y) as [L|L]; [constructor; [exact S|constructor; exact L]|].
  inversion S as [|? ? S' H']; subst. constructor; [apply IH; exact S'|]. destruct l as [|w l]; cbn [insert]; [constructor; lra|].
  destruct (Rleb x w); constructor; [lra|]. inversion H'; assumption.
Qed.
Lemma np_sort_spec l : Permutation (np_sort l) l /\ Sorted Rle (np_sort l).
Proof.
  unfold np_sort. induction l as [|x l [P S]]; cbn [fold_right]; [split; constructor|]. split; [rewrite insert_perm; constructor; exact P|apply insert_sorted; exact S].
Qed.
Lemma levels_phase o : usable_act o -> Sorted Rle (plot_levels o) /\ length (plot_levels o) = 9%nat /\
  forall l, In l (plot_levels o) <-> exists i, (i < 9)%nat /\ l * radians_per_um o = (-2 + INR i / 2) * (ac_n_reflections o / 2).
Proof.
  intros (Hf & Hs & Hn & _). unfold plot_levels. destruct (np_sort_spec (map (fun l => l * (ac_wavel o / (ac_sign o * 4 * PI))) (linspace (-2) 2 9))) as [P S].
  split; [exact S|]. split; [rewrite (Permutation_length P), map_length; apply linspace_length|].
  assert (Hw : 0 < ac_wavel o). { unfold ac_wavel, speed_of_light. apply Rmult_lt_0_compat; [apply Rdiv_lt_0_compat; lra|lra]. }
  assert (Hpi := PI_RGT_0). assert (Hs' : ac_sign o <> 0) by (destruct Hs; lra).
  assert (Ek : forall l, l * (ac_wavel o / (ac_sign o * 4 * PI)) * radians_per_um o = l * (ac_n_reflections o / 2)).
  { intros l. unfold radians_per_um. change (299792458 / ac_frequency o * 1000000) with (ac_wavel o). field. lra. }
  assert (Hr : radians_per_um o <> 0).
  { unfold radians_per_um. change (299792458 / ac_frequency o * 1000000) with (ac_wavel o). intros E. apply (f_equal (fun t => t * ac_wavel o)) in E. unfold Rdiv in E. rewrite Rmult_assoc, Rinv_l, Rmult_0_l, Rmult_1_r in E by lra.
    apply Rmult_integral in E. destruct E as [E|E]; [lra|]. apply Rmult_integral in E. destruct E; lra. }
  intros l. rewrite <- (Permutation_in' (eq_refl l) (Permutation_sym P)). rewrite in_map_iff. split.
  - intros (x & <- & Hx). apply In_nth with (d := 0) in Hx. destruct Hx as (i & Hi & <-). rewrite linspace_length in Hi. exists i. split; [exact Hi|]. rewrite Ek. f_equal. rewrite linspace_nth by lia. field_simplify; [|cbn; lra]. cbn [INR Nat.sub]. lra.
  - intros (i & Hi & E). exists (-2 + INR i / 2). split; [apply Rmult_eq_reg_r with (radians_per_um o); [|exact Hr]; rewrite Ek, E; reflexivity|].
    assert (El : -2 + INR i / 2 = nth i (linspace (-2) 2 9) 0). { rewrite linspace_nth by lia. cbn [INR Nat.sub]. lra. }
    rewrite El. apply nth_In. rewrite linspace_length. exact Hi.
Qed.
