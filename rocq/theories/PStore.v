(** store_data_csv and str2LaTeX. *)
From Coq Require Import String Ascii List FunctionalExtensionality.
From Verif Require Import PyBase Num MFs MOut PFs PStr PFit SOut PFit2 PFit6.
Import ListNotations.
Open Scope R_scope.
Open Scope string_scope.
Open Scope list_scope.
Open Scope prog_scope.

Lemma nine {A} (l : list A) : length l = 9%nat -> exists a b c d e f g h i, l = [a; b; c; d; e; f; g; h; i].
Proof.
  intros H. do 9 (destruct l as [|? l]; [discriminate|]). destruct l; [|discriminate]. repeat eexists.
Qed.
Definition csv_at (name : string) (n : nat) (l : list arr) (k : nat) : path * node :=
  let '(f, h) := nth k (csv_layout n) ("", "") in ([f], File (Csv (h ^^ " " ^^ name) (nth k l (A1 [])))).
Lemma csv_writes_at name n l : length l = 9%nat ->
  csv_writes name (csv_rows n l) = map (csv_at name n l) (if Nat.eqb n 1 then seq 0 9 else seq 3 6).
Proof.
  intros H. apply nine in H. destruct H as (a & b & c & d & e & f & g & h & i & ->). unfold csv_rows, csv_at.
  destruct (Nat.eqb n 1); reflexivity.
Qed.
Lemma written_iff n k : csv_written n k <-> In k (if Nat.eqb n 1 then seq 0 9 else seq 3 6).
Proof.
  unfold csv_written. destruct (Nat.eqb n 1) eqn:E; [apply Nat.eqb_eq in E|apply Nat.eqb_neq in E]; rewrite in_seq; lia.
Qed.
Lemma csv_name_inj n k1 k2 : (k1 < 9)%nat -> (k2 < 9)%nat ->
  fst (nth k1 (csv_layout n) ("", "")) = fst (nth k2 (csv_layout n) ("", "")) -> k1 = k2.
Proof.
  intros H1 H2. do 9 (destruct k1 as [|k1]; [do 9 (destruct k2 as [|k2]; [cbn [nth csv_layout fst]; intros E; (reflexivity || discriminate E)|]); lia|]). lia.
Qed.
Lemma csv_at_fst name n l k : csv_at name n l k = ([fst (nth k (csv_layout n) ("", ""))], File (Csv (snd (nth k (csv_layout n) ("", "")) ^^ " " ^^ name) (nth k l (A1 [])))).
Proof. unfold csv_at. destruct (nth k (csv_layout n) ("", "")); reflexivity. Qed.

Lemma store_csv_spec name d n l s s' : length l = 9%nat -> run (store_data_csv name d n l) s = (Ok tt, s') ->
  (forall k f h, csv_written n k -> nth k (csv_layout n) ("", "") = (f, h) ->
     s' (d ++ [f]) = Some (File (Csv (h ^^ " " ^^ name) (nth k l (A1 []))))) /\
  (forall q, (forall k f h, csv_written n k -> nth k (csv_layout n) ("", "") = (f, h) -> q <> d ++ [f]) -> s' q = s q).
Proof.
  intros Hl H. apply run_store_csv in H. rewrite csv_writes_at in H by exact Hl. subst s'. split.
  - intros k f h Hk E. apply writes_under_in.
    + apply in_map_iff. exists k. split; [|apply written_iff, Hk]. unfold csv_at. rewrite E. reflexivity.
    + intros m Hm. apply in_map_iff in Hm. destruct Hm as (k2 & E2 & Hk2). apply written_iff in Hk2. rewrite csv_at_fst in E2.
      pose proof (f_equal fst E2) as E3. pose proof (f_equal snd E2) as E4. cbn [fst snd] in E3, E4. assert (k2 = k) as ->.
      { apply (csv_name_inj n); [apply Hk2|apply Hk|]. rewrite E. exact (f_equal (hd "") E3). }
      rewrite E in E4. symmetry. exact E4.
  - intros q Hq. apply writes_under_other. intros (r & Hr & ->). apply in_map_iff in Hr. destruct Hr as ([r' nd] & E & Hr). simpl in E. subst r'.
    apply in_map_iff in Hr. destruct Hr as (k & E & Hk). apply written_iff in Hk. rewrite csv_at_fst in E. inversion E; subst.
    apply (Hq k (fst (nth k (csv_layout n) ("", ""))) (snd (nth k (csv_layout n) ("", ""))) Hk); [apply surjective_pairing|reflexivity].
Qed.

Lemma save_all_ok name d l s : s d = Some Dir -> (forall f h x, In (f, h, x) l -> s (d ++ [f]) <> Some Dir) ->
  exists s', run (save_all name d l) s = (Ok tt, s').
Proof.
  revert s. induction l as [|[[f h] x] t IH]; intros s Hd Hl; [eexists; reflexivity|]. cbn [save_all]. rewrite run_bind.
  rewrite write_file_in_dir; [|exact Hd|eapply Hl; left; reflexivity]. apply IH.
  - rewrite upd_other by (apply not_eq_sym, app_ne_self; discriminate). exact Hd.
  - intros f' h' x' Hin. unfold upd. destruct (path_eq_dec _ _); [discriminate|]. eapply Hl. right. exact Hin.
Qed.
Lemma store_csv_ok name d n l s : s d = Some Dir -> (forall f, In f (map fst (csv_layout n)) -> s (d ++ [f]) <> Some Dir) ->
  exists s', run (store_data_csv name d n l) s = (Ok tt, s').
Proof.
  intros Hd Hf. apply save_all_ok; [exact Hd|]. intros f h x Hin. apply Hf. change (map fst (csv_layout n)) with (csv_names n).
  apply (csv_rows_in n l f h x). exact Hin.
Qed.

(** Two different orders share only the data files. *)
Lemma csv_orders_disjoint n m k1 k2 : n <> m -> (3 <= k1 < 9)%nat -> (k2 < 9)%nat ->
  fst (nth k1 (csv_layout n) ("", "")) <> fst (nth k2 (csv_layout m) ("", "")).
Proof.
  intros Hne H1 H2.
  do 9 (destruct k1 as [|k1]; [try lia; do 9 (destruct k2 as [|k2]; [cbn [nth csv_layout fst]; intros E; first [discriminate E|apply Hne; exact (num_inj _ _ _ _ E)]|]); lia|]). lia.
Qed.

(** ** str2LaTeX *)
Lemma letters_latex s : letters (str2LaTeX s) = flat_map (fun c => if Ascii.eqb c underscore then [backslash; underscore] else [c]) (letters s).
Proof.
  unfold letters. induction s as [|c t IH]; [reflexivity|]. cbn [str2LaTeX list_ascii_of_string flat_map].
  unfold underscore in *. destruct (Ascii.eqb c "_"); cbn [list_ascii_of_string app]; rewrite IH; reflexivity.
Qed.
Lemma latex_preceded s a b : letters (str2LaTeX s) = a ++ underscore :: b -> exists a', a = a' ++ [backslash].
Proof.
  rewrite letters_latex. generalize (letters s) as l. intros l. revert a. induction l as [|c t IH]; intros a H; [destruct a; discriminate|].
  cbn [flat_map] in H. destruct (Ascii.eqb c underscore) eqn:E.
  - cbn [app] in H. destruct a as [|x a]; [discriminate H|]. cbn [app] in H. inversion H as [[E1 E2]]. subst x.
    destruct a as [|y a]; [exists []; reflexivity|]. cbn [app] in E2. inversion E2 as [[E3 E4]].
    apply IH in E4. destruct E4 as [a' ->]. exists (backslash :: underscore :: a'). reflexivity.
  - cbn [app] in H. destruct a as [|x a].
    + inversion H. subst c. discriminate E.
    + cbn [app] in H. inversion H as [[E1 E2]]. apply IH in E2. destruct E2 as [a' ->]. exists (x :: a'). reflexivity.
Qed.
Lemma read_latex_escape l : read_latex (flat_map (fun c => if Ascii.eqb c underscore then [backslash; underscore] else [c]) l) = l.
Proof.
  induction l as [|c t IH]; [reflexivity|]. cbn [flat_map]. destruct (Ascii.eqb c underscore) eqn:E.
  - apply Ascii.eqb_eq in E. subst c. cbn [app].
    change (read_latex (backslash :: underscore :: flat_map (fun c => if Ascii.eqb c underscore then [backslash; underscore] else [c]) t))
      with (read_latex (underscore :: flat_map (fun c => if Ascii.eqb c underscore then [backslash; underscore] else [c]) t)).
    cbn [read_latex]. destruct (flat_map _ t) eqn:Ef.
    + cbn in IH. congruence.
    + change (Ascii.eqb underscore backslash) with false. cbn [andb]. rewrite IH. reflexivity.
  - cbn [app read_latex]. destruct (flat_map _ t) as [|e r] eqn:Ef; [cbn in IH; congruence|].
    assert (Ne : (Ascii.eqb c backslash && Ascii.eqb e underscore)%bool = false).
    { destruct (Ascii.eqb e underscore) eqn:Ee; [|apply andb_false_r]. exfalso. apply Ascii.eqb_eq in Ee. subst e.
      destruct t as [|x t]; [discriminate Ef|]. cbn [flat_map] in Ef. destruct (Ascii.eqb x underscore) eqn:Ex; inversion Ef. subst x. discriminate Ex. }
    rewrite Ne, IH. reflexivity.
Qed.
Lemma latex_read s : read_latex (letters (str2LaTeX s)) = letters s.
Proof. rewrite letters_latex. apply read_latex_escape. Qed.
Lemma letters_inj s t : letters s = letters t -> s = t.
Proof. intros H. rewrite <- (string_of_list_ascii_of_string s), <- (string_of_list_ascii_of_string t). unfold letters in H. congruence. Qed.
Lemma latex_inj s t : str2LaTeX s = str2LaTeX t -> s = t.
Proof. intros H. apply letters_inj. rewrite <- (latex_read s), <- (latex_read t). congruence. Qed.
Lemma latex_length s : length (letters (str2LaTeX s)) = (length (letters s) + count_occ ascii_dec (letters s) underscore)%nat.
Proof.
  rewrite letters_latex. induction (letters s) as [|c t IH]; [reflexivity|]. cbn [flat_map count_occ length]. rewrite app_length, IH.
  destruct (ascii_dec c underscore) as [->|Hne].
  - rewrite Ascii.eqb_refl. simpl. lia.
  - apply Ascii.eqb_neq in Hne. rewrite Hne. simpl. lia.
Qed.
Lemma latex_others s : filter (fun x => negb (Ascii.eqb x underscore || Ascii.eqb x backslash)) (letters (str2LaTeX s)) = filter (fun x => negb (Ascii.eqb x underscore || Ascii.eqb x backslash)) (letters s).
Proof.
  rewrite letters_latex. induction (letters s) as [|x t IH]; [reflexivity|]. cbn [flat_map]. rewrite filter_app, IH. cbn [filter].
  destruct (Ascii.eqb x underscore) eqn:E; [reflexivity|]. cbn [filter]. rewrite E. destruct (negb _); reflexivity.
Qed.
Lemma latex_idempotent s : str2LaTeX (str2LaTeX s) = str2LaTeX s <-> ~ In underscore (letters s).
Proof.
  split.
  - intros H Hin. apply latex_inj in H. pose proof (latex_length s) as L. rewrite H in L. apply (count_occ_In ascii_dec) in Hin. lia.
  - intros H. assert (E : str2LaTeX s = s).
    { apply letters_inj. rewrite letters_latex. induction (letters s) as [|c t IH]; [reflexivity|]. cbn [flat_map].
      destruct (Ascii.eqb c underscore) eqn:Ec; [apply Ascii.eqb_eq in Ec; subst c; exfalso; apply H; left; reflexivity|].
      cbn [app]. f_equal. apply IH. intros Hin. apply H. right. exact Hin. }
    rewrite !E. reflexivity.
Qed.
