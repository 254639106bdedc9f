(** The file that a path string names. *)
From Coq Require Import String Ascii List Lia Arith.
From Verif Require Import PyBase Num MFs MAct MAux SAux PStr PAct2 PAux.
Import ListNotations.
Open Scope string_scope.
Open Scope list_scope.

Definition goes (d : path) (p : string) : path := fold_left enter (components p) d.
Lemma goes_nil d : goes d "" = d.
Proof. reflexivity. Qed.
Lemma goes_slash d p : goes d ("/" ^^ p) = goes d p.
Proof. reflexivity. Qed.
Lemma text_chars c : text c = chars c.
Proof. unfold text. induction c as [|a c IH]; [reflexivity|]. cbn. now rewrite IH. Qed.
Lemma goes_name d c p : ~ In "/"%char (text c) -> ends_here p -> goes d (c ^^ p) = goes (goes d c) p.
Proof.
  intros H E. unfold goes. rewrite <- fold_left_app. f_equal. unfold components. rewrite <- filter_app. rewrite text_chars in H. rewrite (split_on_none slash c H).
  destruct E as [->|[r ->]].
  - replace (c ^^ "") with c by (clear; induction c as [|a c IH]; [reflexivity|cbn; now rewrite <- IH]). rewrite (split_on_none slash c H). cbn [app filter split_on]. destruct (_ && _)%bool; reflexivity.
  - change ("/" ^^ r) with (String slash r). rewrite (split_on_app slash c r H). cbn [split_on]. rewrite Ascii.eqb_refl. reflexivity.
Qed.
Lemma goes_plain d c : c <> "" -> c <> "." -> c <> ".." -> ~ In "/"%char (text c) -> goes d c = d ++ [c].
Proof.
  intros H1 H2 H3 H4. unfold goes, components. rewrite text_chars in H4. rewrite (split_on_none slash c H4). cbn [filter]. apply String.eqb_neq in H1, H2, H3. rewrite H1, H2. cbn [negb andb fold_left]. unfold enter. rewrite H3. reflexivity.
Qed.
Lemma walk_goes d p q : walk d p q -> q = goes d p.
Proof.
  intros W. induction W as [d|d p q W IH|d p q E W IH|d c p q E W IH|p q E W IH|d c p q H1 H2 H3 H4 E W IH].
  - reflexivity.
  - rewrite goes_slash. exact IH.
  - rewrite goes_name; [exact IH|cbn; intuition discriminate|exact E].
  - rewrite goes_name; [|cbn; intuition discriminate|exact E]. change (goes (d ++ [c]) "..") with (removelast (d ++ [c])). rewrite removelast_last. exact IH.
  - rewrite goes_name; [exact IH|cbn; intuition discriminate|exact E].
  - rewrite goes_name by assumption. rewrite (goes_plain d c) by assumption. exact IH.
Qed.
Lemma cut_name p : exists c r, p = c ^^ r /\ ~ In "/"%char (text c) /\ ends_here r.
Proof.
  induction p as [|a p IH]; [exists "", ""; split; [reflexivity|]; split; [intros []|left; reflexivity]|].
  destruct (Ascii.eqb_spec a "/"%char) as [->|N].
  - exists "", (String "/" p). split; [reflexivity|]. split; [intros []|right; exists p; reflexivity].
  - destruct IH as (c & r & -> & H & E). exists (String a c), r. split; [reflexivity|]. split; [|exact E]. cbn. intros [X|X]; [congruence|exact (H X)].
Qed.
Lemma append_length c r : String.length (c ^^ r) = (String.length c + String.length r)%nat.
Proof. induction c as [|a c IH]; [reflexivity|]. cbn. now rewrite IH. Qed.
Lemma goes_walk n : forall d p, (String.length p <= n)%nat -> walk d p (goes d p).
Proof.
  induction n as [|n IH]; intros d p L.
  - destruct p; [apply walk_end|cbn in L; lia].
  - destruct (cut_name p) as (c & r & -> & H & E). rewrite append_length in L. destruct c as [|a c].
    + cbn [String.append]. destruct E as [->|[r' ->]]; [apply walk_end|]. rewrite goes_slash. apply walk_slash, IH. cbn in L. lia.
    + assert (Lr : (String.length r <= n)%nat) by (cbn in L; lia). rewrite goes_name by assumption. set (w := String a c) in *.
      destruct (string_dec w ".") as [->|N1]; [apply walk_dot; [exact E|apply IH, Lr]|].
      destruct (string_dec w "..") as [->|N2].
      * destruct d as [|x d'] using rev_ind; [apply walk_root; [exact E|apply IH, Lr]|]. apply walk_up; [exact E|]. change (goes (d' ++ [x]) "..") with (removelast (d' ++ [x])). rewrite removelast_last. apply IH, Lr.
      * apply walk_down; try assumption; [discriminate|]. rewrite (goes_plain d w) by (assumption || discriminate). apply IH, Lr.
Qed.
Lemma leads_iff cwd p q : leads cwd p q <-> q = resolve cwd p.
Proof.
  unfold leads, resolve, is_absolute. destruct p as [|a p].
  - cbn [starts_with]. split; [intros [(r & X & _)|[_ W]]; [discriminate X|exact (walk_goes _ _ _ W)]|]. intros ->. right. split; [intros (r & X); discriminate X|]. apply walk_end.
  - cbn [starts_with]. destruct (Ascii.eqb_spec "/"%char a) as [<-|N]; cbn [andb].
    + split.
      * intros [(r & X & W)|[X _]]; [|exfalso; apply X; exists p; reflexivity]. injection X as <-. exact (walk_goes _ _ _ W).
      * intros ->. left. exists p. split; [reflexivity|]. exact (goes_walk _ [] p (le_n _)).
    + split.
      * intros [(r & X & _)|[_ W]]; [injection X as X _; congruence|]. exact (walk_goes _ _ _ W).
      * intros ->. right. split; [intros (r & X); injection X as X _; congruence|]. exact (goes_walk _ cwd _ (le_n _)).
Qed.
