(** Path strings, extraction of observations, uv_ratio. *)
From Coq Require Import String Ascii List.
From Verif Require Import PyBase PyLib Num MFs MAct MAux SAux PStr PFs PAct2.
Import ListNotations.
Open Scope R_scope.
Open Scope string_scope.
Open Scope list_scope.

Notation chs := list_ascii_of_string.
Notation str := string_of_list_ascii.

Lemma chs_app a b : chs (a ^^ b) = chs a ++ chs b.
Proof. induction a as [|c a IH]; cbn; [reflexivity|]. now rewrite IH. Qed.
Lemma str_app a b : str (a ++ b) = str a ^^ str b.
Proof. induction a as [|c a IH]; cbn; [reflexivity|]. now rewrite IH. Qed.

Lemma rfind_from_none c l i d : ~ In c l -> rfind_from c l i d = d.
Proof.
  revert i d. induction l as [|x l IH]; intros i d H; cbn; [reflexivity|].
  destruct (Ascii.eqb_spec x c) as [->|N]; [exfalso; apply H; left; reflexivity|]. apply IH. intros K. apply H. right. exact K.
Qed.
Lemma rfind_from_app c a b i d : rfind_from c (a ++ b) i d = rfind_from c b (i + Z.of_nat (length a)) (rfind_from c a i d).
Proof.
  revert i d. induction a as [|x a IH]; intros i d.
  - cbn. rewrite Z.add_0_r. reflexivity.
  - cbn [app rfind_from length]. rewrite IH. f_equal. lia.
Qed.
Lemma rfind_last c a b : ~ In c b -> rfind c (a ++ c :: b) = Z.of_nat (length a).
Proof.
  intros H. unfold rfind. rewrite rfind_from_app. cbn [rfind_from]. rewrite Ascii.eqb_refl, rfind_from_none by exact H. lia.
Qed.
Lemma rfind_none c l : ~ In c l -> rfind c l = (-1)%Z.
Proof. apply rfind_from_none. Qed.
Lemma last_occ (c : ascii) l : In c l -> exists a b, l = a ++ c :: b /\ ~ In c b.
Proof.
  induction l as [|x l IH]; [intros []|]. intros H. destruct (in_dec ascii_dec c l) as [I|N].
  - destruct (IH I) as (a & b & E & K). exists (x :: a), b. split; [cbn; now rewrite E|exact K].
  - destruct H as [->|H]; [|contradiction]. exists [], l. split; [reflexivity|exact N].
Qed.
Lemma rfind_cases c l : (rfind c l = (-1)%Z /\ ~ In c l) \/
  exists a b, l = a ++ c :: b /\ ~ In c b /\ rfind c l = Z.of_nat (length a).
Proof.
  destruct (in_dec ascii_dec c l) as [I|N].
  - right. destruct (last_occ c l I) as (a & b & -> & K). exists a, b. repeat split; [exact K|]. apply rfind_last. exact K.
  - left. split; [apply rfind_none; exact N|exact N].
Qed.

(** A directory part and a base name. *)
Definition dir_part (d : list ascii) : Prop := d = [] \/ exists e, d = e ++ [slash].
Lemma rfind_dir d b : dir_part d -> ~ In slash b -> rfind slash (d ++ b) = (Z.of_nat (length d) - 1)%Z.
Proof.
  intros [->|(e & ->)] H.
  - cbn [app length]. rewrite rfind_none by exact H. reflexivity.
  - rewrite <- app_assoc. cbn [app]. rewrite rfind_last by exact H. rewrite app_length. cbn [length]. lia.
Qed.
Lemma upto_app a b : upto (Z.of_nat (length a)) (a ++ b) = a.
Proof. unfold upto. rewrite Nat2Z.id, firstn_app, Nat.sub_diag, firstn_all. cbn. apply app_nil_r. Qed.
Lemma after_app a b : after (Z.of_nat (length a)) (a ++ b) = b.
Proof. unfold after. rewrite Nat2Z.id, skipn_app, Nat.sub_diag, skipn_all. reflexivity. Qed.

Lemma path_split_spec p d b : chs p = d ++ b -> dir_part d -> ~ In slash b ->
  path_split p = (str (if forallb (Ascii.eqb slash) d then d else rstrip slash d), str b).
Proof.
  intros E D B. unfold path_split. rewrite E, rfind_dir by assumption.
  replace (Z.of_nat (length d) - 1 + 1)%Z with (Z.of_nat (length d)) by lia. rewrite upto_app, after_app. reflexivity.
Qed.

Lemma dir_split l : exists d b, l = d ++ b /\ dir_part d /\ ~ In slash b.
Proof.
  destruct (rfind_cases slash l) as [(_ & N)|(a & b & -> & N & _)].
  - exists [], l. split; [reflexivity|]. split; [left; reflexivity|exact N].
  - exists (a ++ [slash]), b. rewrite <- app_assoc. split; [reflexivity|]. split; [right; exists a; reflexivity|exact N].
Qed.

(** The extension is .fits exactly for the documented names. *)
Lemma splitext_yes p dir stem : names_fits p dir stem -> path_splitext p = (dir ^^ stem, ".fits").
Proof.
  intros (E & D & S & c & C & N). unfold path_splitext.
  assert (Ep : chs p = chs dir ++ chs stem ++ chs ".fits") by (rewrite E, !chs_app; reflexivity).
  assert (Dd : dir_part (chs dir)).
  { destruct D as [->|(d & ->)]; [left; reflexivity|right; exists (chs d); rewrite chs_app; reflexivity]. }
  assert (R1 : rfind slash (chs p) = (Z.of_nat (length (chs dir)) - 1)%Z).
  { rewrite Ep. apply rfind_dir; [exact Dd|]. rewrite in_app_iff. intros [K|K]; [exact (S K)|]. cbn in K. intuition discriminate. }
  assert (R2 : rfind dot (chs p) = Z.of_nat (length (chs dir ++ chs stem))).
  { rewrite Ep, app_assoc. change (chs ".fits") with (dot :: chs "fits"). apply rfind_last. cbn. intuition discriminate. }
  rewrite R1, R2.
  replace (upto (Z.of_nat (length (chs dir ++ chs stem))) (chs p)) with (chs dir ++ chs stem).
  2:{ rewrite Ep, app_assoc, upto_app. reflexivity. }
  replace (after (Z.of_nat (length (chs dir ++ chs stem))) (chs p)) with (chs ".fits").
  2:{ rewrite Ep, app_assoc, after_app. reflexivity. }
  replace (Z.of_nat (length (chs dir)) - 1 + 1)%Z with (Z.of_nat (length (chs dir))) by lia. rewrite after_app.
  replace (existsb _ (chs stem)) with true.
  2:{ symmetry. apply existsb_exists. exists c. split; [exact C|]. destruct (Ascii.eqb_spec c dot); [contradiction|reflexivity]. }
  replace (_ <? _)%Z with true. 2:{ symmetry. apply Z.ltb_lt. rewrite app_length. lia. }
  cbn [andb]. rewrite str_app, !string_of_list_ascii_of_string. reflexivity.
Qed.

Lemma splitext_only p : snd (path_splitext p) = ".fits" -> exists dir stem, names_fits p dir stem.
Proof.
  unfold path_splitext. destruct (_ && _) eqn:E; cbn [snd]; [|discriminate].
  apply andb_true_iff in E. destruct E as [L X]. apply Z.ltb_lt in L.
  destruct (rfind_cases dot (chs p)) as [(Rd & _)|(a & b & Ep & Nb & Rd)].
  { rewrite Rd in L. destruct (rfind_cases slash (chs p)) as [(Rs & _)|(? & ? & _ & _ & Rs)]; rewrite Rs in L; lia. }
  rewrite Rd in *. intros EX.
  assert (EX' : after (Z.of_nat (length a)) (chs p) = chs ".fits").
  { rewrite <- EX, list_ascii_of_string_of_list_ascii. reflexivity. }
  rewrite Ep, after_app in EX'.
  destruct (dir_split a) as (d & s & -> & D & S).
  assert (Sb : ~ In slash (s ++ chs ".fits")).
  { rewrite in_app_iff. intros [K|K]; [exact (S K)|]. cbn in K. intuition discriminate. }
  assert (Ep' : chs p = d ++ s ++ chs ".fits") by (rewrite Ep, EX', app_assoc; reflexivity).
  exists (str d), (str s). unfold names_fits, text. rewrite list_ascii_of_string_of_list_ascii. split; [|split; [|split]].
  - rewrite <- (string_of_list_ascii_of_string p), Ep', !str_app, string_of_list_ascii_of_string. reflexivity.
  - destruct D as [->|(e & ->)]; [left; reflexivity|right]. exists (str e). rewrite str_app. reflexivity.
  - exact S.
  - rewrite Ep', rfind_dir in X by assumption.
    replace (Z.of_nat (length d) - 1 + 1)%Z with (Z.of_nat (length d)) in X by lia.
    rewrite app_assoc, upto_app, after_app in X. apply existsb_exists in X. destruct X as (c & C & N). exists c. split; [exact C|].
    intros ->. discriminate N.
Qed.

Lemma names_fits_unique p d1 s1 d2 s2 : names_fits p d1 s1 -> names_fits p d2 s2 -> d1 = d2 /\ s1 = s2.
Proof.
  intros (E1 & D1 & S1 & _) (E2 & D2 & S2 & _). rewrite E1 in E2.
  assert (R1 : rfind slash (chs (d1 ^^ s1 ^^ ".fits")) = (Z.of_nat (length (chs d1)) - 1)%Z).
  { rewrite !chs_app. apply rfind_dir.
    - destruct D1 as [->|(e & ->)]; [left; reflexivity|right; exists (chs e); rewrite chs_app; reflexivity].
    - rewrite in_app_iff. intros [K|K]; [exact (S1 K)|]. cbn in K. intuition discriminate. }
  assert (R2 : rfind slash (chs (d2 ^^ s2 ^^ ".fits")) = (Z.of_nat (length (chs d2)) - 1)%Z).
  { rewrite !chs_app. apply rfind_dir.
    - destruct D2 as [->|(e & ->)]; [left; reflexivity|right; exists (chs e); rewrite chs_app; reflexivity].
    - rewrite in_app_iff. intros [K|K]; [exact (S2 K)|]. cbn in K. intuition discriminate. }
  rewrite E2, R2 in R1.
  assert (L : forall s, length (chs s) = String.length s) by (intros s; induction s; cbn; congruence).
  rewrite !L in R1. assert (LL : String.length d1 = String.length d2) by lia. destruct (sapp_inj_len _ _ _ _ LL E2) as [-> K]. split; [reflexivity|]. apply sapp_inv_tail in K. exact K.
Qed.

(** The directory returned and the stem name the same file. *)
Lemma chars_chs s : chars s = chs s.
Proof. induction s as [|c s IH]; cbn; [reflexivity|]. now rewrite IH. Qed.
Lemma split_on_cons c a t : split_on c (a ^^ String c t) = split_on c a ++ split_on c t.
Proof.
  induction a as [|x a IH]; cbn [String.append split_on].
  - rewrite Ascii.eqb_refl. reflexivity.
  - destruct (Ascii.eqb x c); [rewrite IH; reflexivity|]. rewrite IH.
    destruct (split_on c a) as [|w ws] eqn:E; [|reflexivity].
    exfalso. destruct a; cbn in E; [discriminate|]. destruct (Ascii.eqb a c); [discriminate|]. destruct (split_on c a0); discriminate.
Qed.
Lemma split_on_none_chs c a : ~ In c (chs a) -> split_on c a = [a].
Proof. rewrite <- chars_chs. apply split_on_none. Qed.
Lemma components_app a b : components (a ^^ String slash b) = components a ++ components b.
Proof. unfold components. rewrite split_on_cons, filter_app. reflexivity. Qed.
Lemma components_slashes l b : Forall (eq slash) l -> components (str l ^^ b) = components b.
Proof.
  induction 1 as [|x l <- H IH]; [reflexivity|]. cbn [string_of_list_ascii String.append].
  change (String slash (str l ^^ b)) with ("" ^^ String slash (str l ^^ b)). rewrite components_app. exact IH.
Qed.
Lemma lstrip_spec c l : exists s, l = s ++ lstrip c l /\ Forall (eq c) s /\ (lstrip c l = [] \/ exists x t, lstrip c l = x :: t /\ x <> c).
Proof.
  induction l as [|x l (s & E & F & G)]; [exists []; repeat split; [constructor|left; reflexivity]|].
  cbn [lstrip]. destruct (Ascii.eqb_spec x c) as [->|N].
  - exists (c :: s). split; [cbn; now rewrite <- E|]. split; [constructor; [reflexivity|exact F]|exact G].
  - exists []. split; [reflexivity|]. split; [constructor|]. right. exists x, l. split; [reflexivity|exact N].
Qed.
Lemma rstrip_spec c l : exists s, l = rstrip c l ++ s /\ Forall (eq c) s /\ (rstrip c l = [] \/ exists x t, rstrip c l = t ++ [x] /\ x <> c).
Proof.
  destruct (lstrip_spec c (rev l)) as (s & E & F & G). exists (rev s). unfold rstrip. split; [|split].
  - rewrite <- rev_app_distr, <- E, rev_involutive. reflexivity.
  - apply Forall_rev. exact F.
  - destruct G as [->|(x & t & -> & N)]; [left; reflexivity|right]. exists x, (rev t). cbn [rev]. split; [reflexivity|exact N].
Qed.
Lemma absolute_iff s : is_absolute s = true <-> exists t, s = String slash t.
Proof.
  unfold is_absolute. destruct s as [|c t]; [split; [discriminate|intros (t & E); discriminate]|].
  cbn [starts_with]. change "/"%char with slash. destruct (Ascii.eqb_spec slash c) as [<-|N].
  - cbn [andb]. split; [exists t; reflexivity|]. destruct t; reflexivity.
  - cbn [andb]. split; [discriminate|]. intros (t' & E). injection E as K _. congruence.
Qed.
Lemma absolute_head c a b : is_absolute (String c a) = is_absolute (String c b).
Proof. unfold is_absolute. cbn [starts_with]. destruct a, b; reflexivity. Qed.

Lemma joined_same dir f : (dir = "" \/ exists d, dir = d ^^ "/") -> ~ In slash (chs f) ->
  let head := str (if forallb (Ascii.eqb slash) (chs dir) then chs dir else rstrip slash (chs dir)) in
  components (joined head f) = components (dir ^^ f) /\ is_absolute (joined head f) = is_absolute (dir ^^ f).
Proof.
  intros D F. cbv zeta. destruct (forallb _ _) eqn:A.
  - rewrite string_of_list_ascii_of_string. unfold joined. destruct D as [->|(d & ->)]; [split; reflexivity|].
    destruct (String.eqb_spec (d ^^ "/") "") as [E|N].
    { exfalso. destruct d; discriminate. }
    unfold text. rewrite chs_app. change (chs "/") with ["/"%char]. rewrite last_last. cbn. split; reflexivity.
  - destruct (rstrip_spec slash (chs dir)) as (s & E & Fs & G).
    assert (NE : rstrip slash (chs dir) <> []).
    { intros K. rewrite K in E. cbn in E. rewrite E in A. enough (forallb (Ascii.eqb slash) s = true) by congruence.
      apply forallb_forall. rewrite Forall_forall in Fs. intros x X. rewrite <- (Fs x X). apply Ascii.eqb_refl. }
    destruct G as [G|(x & t & G & N)]; [contradiction|]. rewrite G in *.
    assert (Sn : s <> []).
    { intros ->. rewrite app_nil_r in E. destruct D as [->|(d & ->)]; [destruct t; discriminate|].
      rewrite chs_app in E. change (chs "/") with [slash] in E. apply app_inj_tail in E. destruct E as [_ E]. congruence. }
    set (h := t ++ [x]) in *.
    assert (J : joined (str h) f = str h ^^ "/" ^^ f).
    { unfold joined. destruct (String.eqb_spec (str h) "") as [K|_].
      { exfalso. unfold h in K. rewrite str_app in K. destruct (str t); discriminate. }
      unfold text. rewrite list_ascii_of_string_of_list_ascii. unfold h. rewrite last_last.
      change "/"%char with slash. destruct (Ascii.eqb_spec x slash); [contradiction|reflexivity]. }
    rewrite J.
    assert (Dr : dir = str h ^^ str s) by (rewrite <- (string_of_list_ascii_of_string dir), E, str_app; reflexivity).
    rewrite Dr. destruct s as [|y s]; [congruence|]. inversion Fs as [|? ? <- Fs']; subst.
    rewrite sapp_assoc. cbn [string_of_list_ascii String.append]. split.
    + change "/"%char with slash. rewrite !components_app, components_slashes by exact Fs'. reflexivity.
    + destruct (str h) as [|c w] eqn:Eh.
      { exfalso. unfold h in Eh. rewrite str_app in Eh. destruct (str t); discriminate. }
      cbn [String.append]. apply absolute_head.
Qed.

Lemma drop5 a : drop_last5 (a ^^ ".fits") = a.
Proof.
  unfold drop_last5. rewrite chs_app, app_length. change (length (chs ".fits")) with 5%nat.
  replace (length (chs a) + 5 - 5)%nat with (length (chs a)) by lia.
  rewrite firstn_app, Nat.sub_diag, firstn_all. cbn [firstn]. rewrite app_nil_r. apply string_of_list_ascii_of_string.
Qed.

Lemma split_names p dir stem : names_fits p dir stem ->
  drop_last5 (snd (path_split p)) = stem /\
  forall cwd, resolve cwd (joined (fst (path_split p)) (stem ^^ ".fits")) = resolve cwd p.
Proof.
  intros (E & D & S & _).
  assert (Sb : ~ In slash (chs (stem ^^ ".fits"))).
  { rewrite chs_app, in_app_iff. intros [K|K]; [exact (S K)|]. cbn in K. intuition discriminate. }
  assert (Dd : dir_part (chs dir)).
  { destruct D as [->|(d & ->)]; [left; reflexivity|right; exists (chs d); rewrite chs_app; reflexivity]. }
  assert (Ep : chs p = chs dir ++ chs (stem ^^ ".fits")) by (rewrite E, chs_app; reflexivity).
  rewrite (path_split_spec p (chs dir) (chs (stem ^^ ".fits")) Ep Dd Sb).
  cbn [fst snd]. rewrite string_of_list_ascii_of_string, drop5. split; [reflexivity|]. intros cwd.
  destruct (joined_same dir (stem ^^ ".fits") D Sb) as [C A]. unfold resolve. rewrite C, A, E. reflexivity.
Qed.

(** Reading. *)
Lemma assoc_some {A} k (l : list (string * A)) v : assoc k l = Some v <-> entry k l v.
Proof.
  induction l as [|(k', w) l IH]; cbn.
  - split; [discriminate|]. intros (a & b & E & _). destruct a; discriminate.
  - destruct (String.eqb_spec k k') as [<-|N].
    + split.
      * intros E. injection E as ->. exists [], l. split; [reflexivity|intros x []].
      * intros (a & b & E & F). destruct a as [|x a]; [injection E as -> _; reflexivity|].
        exfalso. injection E as <- E. apply (F (k, w)); [left; reflexivity|reflexivity].
    + rewrite IH. split.
      * intros (a & b & -> & F). exists ((k', w) :: a), b. split; [reflexivity|]. intros x [<-|X]; [cbn; congruence|exact (F x X)].
      * intros (a & b & E & F). destruct a as [|x a]; [injection E as -> _; congruence|].
        injection E as <- ->. exists a, b. split; [reflexivity|]. intros y Y. apply F. right. exact Y.
Qed.
Lemma assoc_none {A} k (l : list (string * A)) : assoc k l = None <-> absent k l.
Proof.
  unfold absent. induction l as [|(k', w) l IH]; cbn.
  - split; [intros _ x []|reflexivity].
  - destruct (String.eqb_spec k k') as [<-|N].
    + split; [discriminate|]. intros F. exfalso. apply (F (k, w)); [left; reflexivity|reflexivity].
    + rewrite IH. split; [intros F x [<-|X]; [cbn; congruence|exact (F x X)]|intros F x X; apply F; right; exact X].
Qed.

Lemma run_open p s : run (open_fits p) s =
  (match s p with Some (File (Fits f)) => Ok f | Some _ => Err OSError | None => Err FileNotFoundError end, s).
Proof.
  unfold open_fits. rewrite run_bind, run_callE. cbn [exec]. destruct (s p) as [[|d]|]; cbn; try reflexivity. destruct d; reflexivity.
Qed.
Lemma card_ok k h v : card k h = Ok v <-> entry k h v.
Proof.
  unfold card. rewrite <- assoc_some. destruct (assoc k h); split; intros E; try discriminate; [apply Ok_inj in E; now subst|now injection E as ->].
Qed.
Lemma quantity_ok k h x : quantity k h = Ok x <-> entry k h (HNum x).
Proof.
  unfold quantity. rewrite <- card_ok. destruct (card k h) as [[y|y]|e]; cbn; split; intros E; try discriminate; apply Ok_inj in E; congruence.
Qed.
Lemma stacked3 a b c l : stacked [a; b; c] = Ok l <-> l = [a; b; c] /\ length b = length a /\ length c = length a.
Proof.
  unfold stacked. cbn [forallb]. destruct (Nat.eqb (length b) (length a)) eqn:E1; destruct (Nat.eqb (length c) (length a)) eqn:E2; cbn [andb];
    rewrite ?Nat.eqb_eq, ?Nat.eqb_neq in *; split; intros H; try discriminate; try (destruct H as (-> & ? & ?)); try reflexivity; try lia.
  apply Ok_inj in H. subst l. auto.
Qed.
Lemma table_ok f i t : table_of f i = Ok t <-> nth_error (ff_tables f) (i - 1) = Some t.
Proof. unfold table_of, py_get. destruct (nth_error _ _); split; intros E; try discriminate; [apply Ok_inj in E|injection E as ->]; congruence. Qed.

(** Each of the two orders: the tables at three positions. *)
Lemma columns3 f c i j k l : map_columns f c [i; j; k] = Ok l <->
  exists ti tj tk a b d, table_of f i = Ok ti /\ table_of f j = Ok tj /\ table_of f k = Ok tk /\
    entry c (th_cols ti) a /\ entry c (th_cols tj) b /\ entry c (th_cols tk) d /\ l = [a; b; d] /\ length b = length a /\ length d = length a.
Proof.
  unfold map_columns, column. cbn [mapM]. split.
  - destruct (table_of f i) as [ti|]; [|discriminate]; cbn [bind]. destruct (assoc c (th_cols ti)) as [a|] eqn:Ea; [|discriminate]; cbn [bind].
    destruct (table_of f j) as [tj|]; [|discriminate]; cbn [bind]. destruct (assoc c (th_cols tj)) as [b|] eqn:Eb; [|discriminate]; cbn [bind].
    destruct (table_of f k) as [tk|]; [|discriminate]; cbn [bind]. destruct (assoc c (th_cols tk)) as [d|] eqn:Ed; [|discriminate]; cbn [bind].
    intros H. apply stacked3 in H. destruct H as (-> & H1 & H2). exists ti, tj, tk, a, b, d. rewrite <- !assoc_some. auto 10.
  - intros (ti & tj & tk & a & b & d & -> & -> & -> & A & B & D & -> & H1 & H2). cbn [bind]. apply assoc_some in A, B, D. rewrite A, B, D. cbn [bind].
    apply stacked3. auto.
Qed.
Lemma dz3 f i j k l : mapM (fun i => bind (table_of f i) (fun t => quantity "DZ" (th_header t))) [i; j; k] = Ok l <->
  exists ti tj tk a b d, table_of f i = Ok ti /\ table_of f j = Ok tj /\ table_of f k = Ok tk /\
    entry "DZ" (th_header ti) (HNum a) /\ entry "DZ" (th_header tj) (HNum b) /\ entry "DZ" (th_header tk) (HNum d) /\ l = [a; b; d].
Proof.
  cbn [mapM]. split.
  - destruct (table_of f i) as [ti|]; [|discriminate]; cbn [bind]. destruct (quantity "DZ" (th_header ti)) as [a|] eqn:Ea; [|discriminate]; cbn [bind].
    destruct (table_of f j) as [tj|]; [|discriminate]; cbn [bind]. destruct (quantity "DZ" (th_header tj)) as [b|] eqn:Eb; [|discriminate]; cbn [bind].
    destruct (table_of f k) as [tk|]; [|discriminate]; cbn [bind]. destruct (quantity "DZ" (th_header tk)) as [d|] eqn:Ed; [|discriminate]; cbn [bind].
    intros H. apply Ok_inj in H. subst l. exists ti, tj, tk, a, b, d. rewrite <- !quantity_ok. auto 10.
  - intros (ti & tj & tk & a & b & d & -> & -> & -> & A & B & D & ->). cbn [bind]. apply quantity_ok in A, B, D. rewrite A, B, D. reflexivity.
Qed.
Lemma three_iff f i j k cb cu cv ob :
  (map_columns f cb [i; j; k] = Ok (ob_beam ob) /\ map_columns f cu [i; j; k] = Ok (ob_u ob) /\ map_columns f cv [i; j; k] = Ok (ob_v ob) /\
   mapM (fun i => bind (table_of f i) (fun t => quantity "DZ" (th_header t))) [i; j; k] = Ok (ob_d_z ob)) <->
  exists t1 t2 t3, table_of f i = Ok t1 /\ table_of f j = Ok t2 /\ table_of f k = Ok t3 /\ observed_maps t1 t2 t3 cb cu cv ob.
Proof.
  rewrite !columns3, dz3. unfold observed_maps, map_in. split.
  - intros ((t1 & t2 & t3 & b1 & b2 & b3 & T1 & T2 & T3 & B1 & B2 & B3 & EB & LB & LB') & (t1' & t2' & t3' & u1 & u2 & u3 & T1' & T2' & T3' & U1 & U2 & U3 & EU & LU & LU') &
     (s1' & s2' & s3' & v1 & v2 & v3 & S1' & S2' & S3' & V1 & V2 & V3 & EV & LV & LV') & (r1' & r2' & r3' & z1 & z2 & z3 & R1' & R2' & R3' & Z1 & Z2 & Z3 & EZ)).
    rewrite T1 in *. rewrite T2 in *. rewrite T3 in *.
    apply Ok_inj in T1', T2', T3', S1', S2', S3', R1', R2', R3'. subst. do 3 eexists. split; [reflexivity|]. split; [reflexivity|]. split; [reflexivity|].
    exists b1, b2, b3, u1, u2, u3, v1, v2, v3, z1, z2, z3. auto 30.
  - intros (t1 & t2 & t3 & T1 & T2 & T3 & b1 & b2 & b3 & u1 & u2 & u3 & v1 & v2 & v3 & z1 & z2 & z3 & (B1 & U1 & V1 & Z1) & (B2 & U2 & V2 & Z2) & (B3 & U3 & V3 & Z3) &
      LB & LB' & LU & LU' & LV & LV' & EB & EU & EV & EZ).
    split; [|split; [|split]].
    + exists t1, t2, t3, b1, b2, b3. auto 12.
    + exists t1, t2, t3, u1, u2, u3. auto 12.
    + exists t1, t2, t3, v1, v2, v3. auto 12.
    + exists t1, t2, t3, z1, z2, z3. auto 12.
Qed.

Definition named (p : string) (ob : observation) : Prop :=
  ob_name ob = drop_last5 (snd (path_split p)) /\ ob_pthto ob = fst (path_split p).

Lemma rejects cwd p : (forall dir stem, ~ names_fits p dir stem) ->
  extract_data_pyoof cwd p = Raise ValueError /\ extract_data_effelsberg cwd p = Raise ValueError.
Proof.
  intros H. unfold extract_data_pyoof, extract_data_effelsberg. destruct (String.eqb_spec (snd (path_splitext p)) ".fits") as [E|N]; [|split; reflexivity].
  exfalso. destruct (splitext_only p E) as (d & s & K). exact (H d s K).
Qed.

Lemma keys_true h : forallb (has_key h) needed_keys = true <-> forall k, In k needed_keys -> exists v, entry k h v.
Proof.
  rewrite forallb_forall. unfold has_key. split; intros H k K; specialize (H k K).
  - destruct (assoc k h) as [v|] eqn:E; [|discriminate]. exists v. apply assoc_some. exact E.
  - destruct H as (v & V). apply assoc_some in V. rewrite V. reflexivity.
Qed.

Lemma pyoof_iff cwd p dir stem s ob : names_fits p dir stem ->
  (fst (run (extract_data_pyoof cwd p) s) = Ok ob <->
   named p ob /\ exists f t1 t2 t3 rest, s (resolve cwd p) = Some (File (Fits f)) /\ general f ob /\ entry "WAVEL" (ff_primary f) (HNum (ob_wavel ob)) /\
     ff_tables f = t1 :: t2 :: t3 :: rest /\ observed_maps t1 t2 t3 "BEAM" "U" "V" ob).
Proof.
  intros NF. unfold extract_data_pyoof. rewrite (splitext_yes p dir stem NF). cbn [snd]. rewrite String.eqb_refl. cbn [negb].
  rewrite run_bind, run_open. split.
  - destruct (s (resolve cwd p)) as [[|d]|]; try discriminate. destruct d; try discriminate.
    destruct (negb _) eqn:EK; [discriminate|].
    rewrite run_bind, run_lift.
    destruct (quantity "FREQ" (ff_primary f)) as [fr|] eqn:E1; [|discriminate]. rewrite run_bind, run_lift.
    destruct (quantity "WAVEL" (ff_primary f)) as [wl|] eqn:E2; [|discriminate]. rewrite run_bind, run_lift.
    destruct (quantity "MEANEL" (ff_primary f)) as [me|] eqn:E3; [|discriminate]. rewrite run_bind, run_lift.
    destruct (card "OBJECT" (ff_primary f)) as [oo|] eqn:E4; [|discriminate]. rewrite run_bind, run_lift.
    destruct (card "DATE_OBS" (ff_primary f)) as [dd|] eqn:E5; [|discriminate]. rewrite run_bind, run_lift.
    destruct (map_columns f "BEAM" [1; 2; 3]%nat) as [bb|] eqn:E6; [|discriminate]. rewrite run_bind, run_lift.
    destruct (map_columns f "U" [1; 2; 3]%nat) as [uu|] eqn:E7; [|discriminate]. rewrite run_bind, run_lift.
    destruct (map_columns f "V" [1; 2; 3]%nat) as [vv|] eqn:E8; [|discriminate]. rewrite run_bind, run_lift.
    match goal with |- context [mapM ?g ?l] => destruct (mapM g l) as [zz|] eqn:E9 end; [|discriminate]. cbn [run fst]. intros H. apply Ok_inj in H. subst ob.
    split; [split; reflexivity|]. exists f.
    match goal with |- context [observed_maps _ _ _ _ _ _ ?o] => destruct (proj1 (three_iff f 1 2 3 "BEAM" "U" "V" o) (conj E6 (conj E7 (conj E8 E9)))) as (t1 & t2 & t3 & T1 & T2 & T3 & M) end.
    apply table_ok in T1, T2, T3. destruct (ff_tables f) as [|x1 [|x2 [|x3 rest]]]; try discriminate. cbn in T1, T2, T3.
    injection T1 as ->. injection T2 as ->. injection T3 as ->. exists t1, t2, t3, rest. split; [reflexivity|].
    unfold general. cbn. rewrite <- !quantity_ok, <- !card_ok. auto 10.
  - intros ((N1 & N2) & f & t1 & t2 & t3 & rest & Ef & (G1 & G2 & G3 & G4) & W & T & M). rewrite Ef.
    assert (K : forallb (has_key (ff_primary f)) needed_keys = true).
    { apply keys_true. unfold needed_keys. intros k [<-|[<-|[<-|[<-|[<-|[]]]]]]; eexists; eassumption. }
    rewrite K. cbn [negb]. apply quantity_ok in G1, G2, W. apply card_ok in G3, G4.
    destruct (proj2 (three_iff f 1 2 3 "BEAM" "U" "V" ob)) as (E6 & E7 & E8 & E9).
    { exists t1, t2, t3. rewrite !table_ok, T. cbn. auto. }
    rewrite run_bind, run_lift, G1, run_bind, run_lift, W, run_bind, run_lift, G2, run_bind, run_lift, G3, run_bind, run_lift, G4,
      run_bind, run_lift, E6, run_bind, run_lift, E7, run_bind, run_lift, E8, run_bind, run_lift, E9.
    cbn [run fst]. rewrite <- N1, <- N2. destruct ob; reflexivity.
Qed.

Lemma effelsberg_iff cwd p dir stem s ob : names_fits p dir stem ->
  (fst (run (extract_data_effelsberg cwd p) s) = Ok ob <->
   named p ob /\ exists f t1 t2 t3 rest, s (resolve cwd p) = Some (File (Fits f)) /\ general f ob /\ ob_wavel ob = speed_of_light / ob_freq ob /\
     ff_tables f = t1 :: t2 :: t3 :: rest /\ observed_maps t3 t1 t2 "fnu" "DX" "DY" ob).
Proof.
  intros NF. unfold extract_data_effelsberg. rewrite (splitext_yes p dir stem NF). cbn [snd]. rewrite String.eqb_refl. cbn [negb].
  rewrite run_bind, run_open. split.
  - destruct (s (resolve cwd p)) as [[|d]|]; try discriminate. destruct d; try discriminate.
    rewrite run_bind, run_lift.
    destruct (quantity "FREQ" (ff_primary f)) as [fr|] eqn:E1; [|discriminate]. rewrite run_bind, run_lift.
    destruct (quantity "MEANEL" (ff_primary f)) as [me|] eqn:E3; [|discriminate]. rewrite run_bind, run_lift.
    destruct (card "OBJECT" (ff_primary f)) as [oo|] eqn:E4; [|discriminate]. rewrite run_bind, run_lift.
    destruct (card "DATE_OBS" (ff_primary f)) as [dd|] eqn:E5; [|discriminate]. rewrite run_bind, run_lift.
    match goal with |- context [mapM ?g ?l] => destruct (mapM g l) as [zz|] eqn:E9 end; [|discriminate]. rewrite run_bind, run_lift.
    destruct (map_columns f "fnu" [3; 1; 2]%nat) as [bb|] eqn:E6; [|discriminate]. rewrite run_bind, run_lift.
    destruct (map_columns f "DX" [3; 1; 2]%nat) as [uu|] eqn:E7; [|discriminate]. rewrite run_bind, run_lift.
    destruct (map_columns f "DY" [3; 1; 2]%nat) as [vv|] eqn:E8; [|discriminate].
    cbn [run fst]. intros H. apply Ok_inj in H. subst ob.
    split; [split; reflexivity|]. exists f.
    match goal with |- context [observed_maps _ _ _ _ _ _ ?o] => destruct (proj1 (three_iff f 3 1 2 "fnu" "DX" "DY" o) (conj E6 (conj E7 (conj E8 E9)))) as (t3 & t1 & t2 & T3 & T1 & T2 & M) end.
    apply table_ok in T1, T2, T3. destruct (ff_tables f) as [|x1 [|x2 [|x3 rest]]]; try discriminate. cbn in T1, T2, T3.
    injection T1 as ->. injection T2 as ->. injection T3 as ->. exists t1, t2, t3, rest. split; [reflexivity|].
    unfold general. cbn. rewrite <- !quantity_ok, <- !card_ok. auto 10.
  - intros ((N1 & N2) & f & t1 & t2 & t3 & rest & Ef & (G1 & G2 & G3 & G4) & W & T & M). rewrite Ef.
    apply quantity_ok in G1, G2. apply card_ok in G3, G4.
    destruct (proj2 (three_iff f 3 1 2 "fnu" "DX" "DY" ob)) as (E6 & E7 & E8 & E9).
    { exists t3, t1, t2. rewrite !table_ok, T. cbn. auto. }
    rewrite run_bind, run_lift, G1, run_bind, run_lift, G2, run_bind, run_lift, G3, run_bind, run_lift, G4,
      run_bind, run_lift, E9, run_bind, run_lift, E6, run_bind, run_lift, E7, run_bind, run_lift, E8.
    cbn [run fst]. rewrite <- N1, <- N2, <- W. destruct ob; reflexivity.
Qed.

(** Nothing is written; what cannot be read. *)
Lemma extract_reads_only cwd p : only (fun _ => False) (fun _ => False) (extract_data_pyoof cwd p) /\
  only (fun _ => False) (fun _ => False) (extract_data_effelsberg cwd p).
Proof.
  unfold extract_data_pyoof, extract_data_effelsberg. split; destruct (negb _); try exact I; cbn [open_fits bindP callE lift only]; (split; [exact I|]; split; [exact I|]);
    intros [d|]; try exact I; destruct d; try exact I; cbn [lift bindP].
  - destruct (negb _); [exact I|]. repeat (apply only_bind; [apply only_lift|intros ?]). exact I.
  - repeat (apply only_bind; [apply only_lift|intros ?]). exact I.
Qed.
Lemma extract_unchanged cwd p s q : snd (run (extract_data_pyoof cwd p) s) q = s q /\ snd (run (extract_data_effelsberg cwd p) s) q = s q.
Proof.
  destruct (extract_reads_only cwd p) as [A B].
  split; [apply (only_run _ _ _ s A)|apply (only_run _ _ _ s B)]; auto.
Qed.
Lemma missing_file cwd p dir stem s : names_fits p dir stem -> s (resolve cwd p) = None ->
  fst (run (extract_data_pyoof cwd p) s) = Err FileNotFoundError /\ fst (run (extract_data_effelsberg cwd p) s) = Err FileNotFoundError.
Proof.
  intros NF E. unfold extract_data_pyoof, extract_data_effelsberg. rewrite (splitext_yes p dir stem NF). cbn [snd]. rewrite String.eqb_refl. cbn [negb].
  rewrite !run_bind, run_open, E. split; reflexivity.
Qed.
Lemma missing_key cwd p dir stem s f k : names_fits p dir stem -> s (resolve cwd p) = Some (File (Fits f)) ->
  In k needed_keys -> absent k (ff_primary f) -> fst (run (extract_data_pyoof cwd p) s) = Err ValueError.
Proof.
  intros NF E K A. unfold extract_data_pyoof. rewrite (splitext_yes p dir stem NF). cbn [snd]. rewrite String.eqb_refl. cbn [negb].
  rewrite run_bind, run_open, E. destruct (forallb (has_key (ff_primary f)) needed_keys) eqn:F; [|reflexivity].
  exfalso. rewrite forallb_forall in F. specialize (F k K). unfold has_key in F. apply assoc_none in A. rewrite A in F. discriminate.
Qed.

(** uv_ratio. *)
Lemma fold_max l x : In (fold_left Rmax l x) (x :: l) /\ forall y, In y (x :: l) -> y <= fold_left Rmax l x.
Proof.
  revert x. induction l as [|z l IH]; intros x; cbn [fold_left].
  - split; [left; reflexivity|]. intros y [<-|[]]. lra.
  - destruct (IH (Rmax x z)) as [I J]. split.
    + destruct I as [I|I]; [|right; right; exact I]. rewrite <- I. unfold Rmax. destruct (Rle_dec x z); [right; left|left]; reflexivity.
    + intros y [<-|[<-|Y]]; [| |apply J; right; exact Y]; (eapply Rle_trans; [|apply J; left; reflexivity]); [apply Rmax_l|apply Rmax_r].
Qed.
Lemma fold_min l x : In (fold_left Rmin l x) (x :: l) /\ forall y, In y (x :: l) -> fold_left Rmin l x <= y.
Proof.
  revert x. induction l as [|z l IH]; intros x; cbn [fold_left].
  - split; [left; reflexivity|]. intros y [<-|[]]. lra.
  - destruct (IH (Rmin x z)) as [I J]. split.
    + destruct I as [I|I]; [|right; right; exact I]. rewrite <- I. unfold Rmin. destruct (Rle_dec x z); [left|right; left]; reflexivity.
    + intros y [<-|[<-|Y]]; [| |apply J; right; exact Y]; (eapply Rle_trans; [apply J; left; reflexivity|]); [apply Rmin_l|apply Rmin_r].
Qed.
Lemma extremes_unique l a b a' b' : extremes l a b -> extremes l a' b' -> a = a' /\ b = b'.
Proof.
  intros (A & B & H) (A' & B' & H'). pose proof (H _ A'). pose proof (H _ B'). pose proof (H' _ A). pose proof (H' _ B). split; lra.
Qed.
Lemma arr_extremes l a b : extremes l a b -> arr_max l = Ok b /\ arr_min l = Ok a.
Proof.
  intros E. destruct l as [|x l]; [destruct E as ([] & _)|]. cbn [arr_max arr_min].
  destruct (fold_max l x) as [M1 M2]. destruct (fold_min l x) as [N1 N2].
  destruct (extremes_unique (x :: l) a b (fold_left Rmin l x) (fold_left Rmax l x) E) as [-> ->]; [|split; reflexivity].
  split; [exact N1|]. split; [exact M1|]. intros y Y. split; [apply N2|apply M2]; exact Y.
Qed.
Lemma extremes_exist l : l <> [] -> exists a b, extremes l a b.
Proof.
  destruct l as [|x l]; [congruence|]. intros _. exists (fold_left Rmin l x), (fold_left Rmax l x).
  destruct (fold_max l x) as [M1 M2]. destruct (fold_min l x) as [N1 N2]. split; [exact N1|]. split; [exact M1|]. intros y Y. split; [apply N2|apply M2]; exact Y.
Qed.
Lemma uv_formula cu cv u v a b c d : extremes u a b -> extremes v c d -> c < d ->
  uv_ratio cu cv u v = Ok (11.25 * ((b - a) * cu) / ((d - c) * cv), 5).
Proof.
  intros U V L. unfold uv_ratio. destruct (arr_extremes u a b U) as [-> ->]. destruct (arr_extremes v c d V) as [-> ->]. cbn [bind].
  destruct (Reqb_spec (d - c) 0) as [E|N]; [lra|]. f_equal. f_equal. unfold Rdiv. rewrite Rinv_mult. lra.
Qed.
Lemma extremes_map l a b f : (forall x y, x <= y -> f x <= f y) -> extremes l a b -> extremes (map f l) (f a) (f b).
Proof.
  intros M (A & B & H). split; [apply in_map; exact A|]. split; [apply in_map; exact B|].
  intros x X. apply in_map_iff in X. destruct X as (y & <- & Y). split; apply M; apply H; exact Y.
Qed.
Lemma uv_units k cu cv u v : 0 < k -> cv <> 0 -> uv_ratio cu cv (map (Rmult k) u) (map (Rmult k) v) = uv_ratio cu cv u v.
Proof.
  intros K CV. destruct u as [|x u]; [reflexivity|]. destruct v as [|y v].
  { unfold uv_ratio, arr_max, arr_min. reflexivity. }
  destruct (extremes_exist (x :: u)) as (a & b & U); [discriminate|]. destruct (extremes_exist (y :: v)) as (c & d & V); [discriminate|].
  assert (Mo : forall r s, r <= s -> k * r <= k * s) by (intros; nra).
  pose proof (extremes_map _ _ _ (Rmult k) Mo U) as U'. pose proof (extremes_map _ _ _ (Rmult k) Mo V) as V'.
  destruct (Rlt_dec c d) as [L|N].
  - rewrite (uv_formula _ _ _ _ _ _ _ _ U V L), (uv_formula _ _ _ _ _ _ _ _ U' V' (Rmult_lt_compat_l k c d K L)). f_equal. f_equal. replace (k * b - k * a) with (k * (b - a)) by ring. replace (k * d - k * c) with (k * (d - c)) by ring. field. repeat split; try assumption; lra.
  - assert (c = d) by (destruct V as (V1 & V2 & V3); specialize (V3 c V1); lra). subst d.
    unfold uv_ratio. destruct (arr_extremes _ _ _ U) as [-> ->]. destruct (arr_extremes _ _ _ V) as [-> ->].
    destruct (arr_extremes _ _ _ U') as [-> ->]. destruct (arr_extremes _ _ _ V') as [-> ->]. cbn [bind].
    replace (c - c) with 0 by ring. replace (k * c - k * c) with 0 by ring. destruct (Reqb_spec 0 0); [reflexivity|congruence].
Qed.
Lemma uv_shift a0 b0 cu cv u v : cv <> 0 -> uv_ratio cu cv (map (Rplus a0) u) (map (Rplus b0) v) = uv_ratio cu cv u v.
Proof.
  intros CV. destruct u as [|x u]; [reflexivity|]. destruct v as [|y v].
  { unfold uv_ratio, arr_max, arr_min. reflexivity. }
  destruct (extremes_exist (x :: u)) as (a & b & U); [discriminate|]. destruct (extremes_exist (y :: v)) as (c & d & V); [discriminate|].
  assert (Mo : forall k r s, r <= s -> k + r <= k + s) by (intros; lra).
  pose proof (extremes_map _ _ _ (Rplus a0) (Mo a0) U) as U'. pose proof (extremes_map _ _ _ (Rplus b0) (Mo b0) V) as V'.
  unfold uv_ratio. destruct (arr_extremes _ _ _ U) as [-> ->]. destruct (arr_extremes _ _ _ V) as [-> ->].
  destruct (arr_extremes _ _ _ U') as [-> ->]. destruct (arr_extremes _ _ _ V') as [-> ->]. cbn [bind].
  replace (b0 + d - (b0 + c)) with (d - c) by ring. replace (a0 + b - (a0 + a)) with (b - a) by ring. reflexivity.
Qed.
