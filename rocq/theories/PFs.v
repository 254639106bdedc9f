(** Generic facts about programs over the file system. *)
From Coq Require Import String Ascii List FunctionalExtensionality.
From Verif Require Import PyBase Num MFs.
Import ListNotations.
Open Scope R_scope.
Open Scope string_scope.
Open Scope list_scope.
Open Scope prog_scope.

Lemma upd_same s p n : upd s p n p = Some n.
Proof. unfold upd. destruct (path_eq_dec p p); congruence. Qed.
Lemma upd_other s p n q : q <> p -> upd s p n q = s q.
Proof. intros H. unfold upd. destruct (path_eq_dec q p); congruence. Qed.
Lemma upd_upd s p a b : upd (upd s p a) p b = upd s p b.
Proof. apply functional_extensionality; intros q. unfold upd. destruct (path_eq_dec q p); reflexivity. Qed.

Lemma run_bind {A B} (p : prog A) (f : A -> prog B) s :
  run (bindP p f) s = match run p s with (Ok a, s') => run (f a) s' | (Err e, s') => (Err e, s') end.
Proof.
  revert s. induction p as [a|e|X o k IH]; intros s; simpl; auto.
  destruct (exec o s) as [x s']. apply IH.
Qed.
Lemma run_lift {A} (r : res A) s : run (lift r) s = (r, s).
Proof. destruct r; reflexivity. Qed.
Lemma run_callE {A} (o : op (res A)) s : run (callE o) s = exec o s.
Proof. simpl. destruct (exec o s) as [x s']. apply run_lift. Qed.
Lemma run_call {X} (o : op X) s : run (call o) s = (Ok (fst (exec o s)), snd (exec o s)).
Proof. simpl. destruct (exec o s); reflexivity. Qed.

Lemma bind_assoc {A B C} (p : prog A) (f : A -> prog B) (g : B -> prog C) :
  bindP (bindP p f) g = bindP p (fun a => bindP (f a) g).
Proof.
  induction p as [a|e|X o k IH]; simpl; auto. f_equal. apply functional_extensionality; auto.
Qed.

(** ** Every state a program passes through *)
Fixpoint always {A} (I : fs -> Prop) (p : prog A) (s : fs) : Prop :=
  I s /\ match p with Do o k => let '(x, s') := exec o s in always I (k x) s' | _ => True end.

Lemma always_steps {A} I (p : prog A) s n : always I p s -> I (snd (steps n p s)) /\ always I (fst (steps n p s)) (snd (steps n p s)).
Proof.
  revert p s. induction n as [|n IH]; intros p s H.
  - simpl. split; [|exact H]. destruct p; apply H.
  - destruct p as [a|e|X o k]; simpl; try (split; [apply H|exact H]).
    simpl in H. destruct H as [_ H]. destruct (exec o s) as [x s']. apply IH. exact H.
Qed.
Lemma always_run {A} I (p : prog A) s : always I p s -> I (snd (run p s)).
Proof.
  revert s. induction p as [a|e|X o k IH]; intros s H; simpl in *; try apply H.
  destruct H as [_ H]. destruct (exec o s) as [x s']. apply IH. exact H.
Qed.
Lemma always_impl {A} (I J : fs -> Prop) (p : prog A) s : (forall s, I s -> J s) -> always I p s -> always J p s.
Proof.
  intros HIJ. revert s. induction p as [a|e|X o k IH]; intros s [H1 H2]; simpl in *; split; auto.
  destruct (exec o s) as [x s']. auto.
Qed.
Lemma always_bind {A B} I (p : prog A) (f : A -> prog B) s :
  always I p s -> (forall a s', run p s = (Ok a, s') -> always I (f a) s') -> always I (bindP p f) s.
Proof.
  revert s. induction p as [a|e|X o k IH]; intros s H Hf; simpl.
  - apply Hf. reflexivity.
  - simpl in H. tauto.
  - destruct H as [H1 H2]. split; [exact H1|]. simpl in *. destruct (exec o s) as [x s']. apply IH; auto.
Qed.

(** ** Where a program may write, whatever it reads *)
Definition mk_in (P : path -> Prop) {X} (o : op X) : Prop := match o with Mkdir p => P p | _ => True end.
Definition wr_in (P : path -> Prop) {X} (o : op X) : Prop :=
  match o with OpenW p => P p | Put p _ => P p | _ => True end.
Fixpoint only {A} (M W : path -> Prop) (p : prog A) : Prop :=
  match p with Do o k => mk_in M o /\ wr_in W o /\ forall x, only M W (k x) | _ => True end.

Lemma only_bind {A B} M W (p : prog A) (f : A -> prog B) :
  only M W p -> (forall a, only M W (f a)) -> only M W (bindP p f).
Proof. intros Hp Hf. induction p as [a|e|X o k IH]; simpl in *; auto. destruct Hp as (H1 & H2 & H3). auto. Qed.
Lemma only_catch {A} M W (p : prog A) h :
  only M W p -> (forall e, only M W (h e)) -> only M W (catchP p h).
Proof. intros Hp Hf. induction p as [a|e|X o k IH]; simpl in *; auto. destruct Hp as (H1 & H2 & H3). auto. Qed.
Lemma only_lift {A} M W (r : res A) : only M W (lift r).
Proof. destruct r; exact I. Qed.
Lemma only_impl {A} (M W M' W' : path -> Prop) (p : prog A) :
  (forall q, M q -> M' q) -> (forall q, W q -> W' q) -> only M W p -> only M' W' p.
Proof.
  intros HM HW. induction p as [a|e|X o k IH]; simpl; auto. intros (H1 & H2 & H3). repeat split.
  - destruct o; simpl in *; auto.
  - destruct o; simpl in *; auto.
  - auto.
Qed.

(** One call changes nothing outside its write sets, and a directory creation
    changes nothing that exists. *)
Lemma exec_frame {X} (o : op X) M W s q :
  mk_in M o -> wr_in W o -> ~ W q -> (s q <> None \/ ~ M q) -> snd (exec o s) q = s q.
Proof.
  intros HM HW Hq Hex. destruct o; simpl in *; auto.
  - destruct (s p) eqn:Ep; simpl; auto. destruct (s (parent p)) as [[|d]|]; simpl; auto.
    apply upd_other. intros ->. destruct Hex; [congruence|auto].
  - destruct (s p) as [[|d]|] eqn:Ep; simpl; auto; [|destruct (s (parent p)) as [[|d]|]; simpl; auto];
      apply upd_other; intros ->; auto.
  - destruct (s p) as [[|d']|] eqn:Ep; simpl; auto. apply upd_other; intros ->; auto.
Qed.

Definition keeps (M W : path -> Prop) (s s' : fs) : Prop :=
  forall q, ~ W q -> s q <> None \/ ~ M q -> s' q = s q.
Lemma keeps_refl M W s : keeps M W s s.
Proof. intros q _ _. reflexivity. Qed.
Lemma keeps_trans M W a b c : keeps M W a b -> keeps M W b c -> keeps M W a c.
Proof.
  intros H1 H2 q Hq He. rewrite (H2 q Hq); [apply H1; assumption|].
  destruct He as [He|He]; [left|right; exact He]. rewrite (H1 q Hq); auto.
Qed.
Lemma only_always_from {A} M W (p : prog A) s0 s : keeps M W s0 s -> only M W p -> always (keeps M W s0) p s.
Proof.
  revert s. induction p as [a|e|X o k IH]; intros s Hk Ho; simpl in *; auto.
  destruct Ho as (H1 & H2 & H3). split; [exact Hk|].
  destruct (exec o s) as [x s'] eqn:Ex. apply IH; [|apply H3].
  eapply keeps_trans; [exact Hk|]. intros q Hq He.
  replace s' with (snd (exec o s)) by (rewrite Ex; reflexivity). eapply exec_frame; eauto.
Qed.
Lemma only_always {A} M W (p : prog A) s : only M W p -> always (keeps M W s) p s.
Proof. apply only_always_from. apply keeps_refl. Qed.
Lemma only_run {A} M W (p : prog A) s : only M W p -> keeps M W s (snd (run p s)).
Proof. intros H. apply always_run, only_always, H. Qed.

(** ** makedirs *)
Definition is_prefix (p q : path) : Prop := exists t, q = p ++ t.
Lemma is_prefix_refl p : is_prefix p p.
Proof. exists []. rewrite app_nil_r. reflexivity. Qed.
Lemma is_prefix_trans a b c : is_prefix a b -> is_prefix b c -> is_prefix a c.
Proof. intros [t ->] [u ->]. exists (t ++ u). rewrite app_assoc. reflexivity. Qed.
Lemma is_prefix_length a b : is_prefix a b -> (length a <= length b)%nat.
Proof. intros [t ->]. rewrite app_length. lia. Qed.

Lemma makedirs_rev_only b r : only (fun q => is_prefix q (rev r)) (fun _ => False) (makedirs_rev b r).
Proof.
  induction r as [|c t IH]; [destruct b; exact I|].
  cbn [makedirs_rev]. apply only_bind; [simpl; auto|]. intros e. apply only_bind.
  - destruct e; [exact I|]. apply only_catch.
    + eapply only_impl; [| |exact IH]; [|auto]. intros q Hq. eapply is_prefix_trans; [exact Hq|].
      exists [c]. reflexivity.
    + intros []; exact I.
  - intros _. cbn [call bindP only mk_in wr_in]. repeat split; [apply is_prefix_refl|].
    intros [u|e']; [exact I|]. destruct b; [|exact I]. cbn. repeat split. intros []; exact I.
Qed.
Lemma makedirs_only p b : only (fun q => is_prefix q p) (fun _ => False) (makedirs p b).
Proof.
  unfold makedirs. eapply only_impl; [| |apply makedirs_rev_only]; [|auto].
  intros q. rewrite rev_involutive. auto.
Qed.

Lemma parent_snoc p c : parent (p ++ [c]) = p.
Proof. unfold parent. apply removelast_last. Qed.

(** Creating a new directory in an existing one is one call. *)
Lemma run_makedirs_new p c b s :
  s p = Some Dir -> s (p ++ [c]) = None -> run (makedirs (p ++ [c]) b) s = (Ok tt, upd s (p ++ [c]) Dir).
Proof.
  intros Hp Hn. unfold makedirs. rewrite rev_unit. cbn [makedirs_rev call bindP run exec].
  rewrite rev_involutive. rewrite Hp. cbn. rewrite rev_involutive.
  rewrite Hn, parent_snoc, Hp. reflexivity.
Qed.
(** makedirs(exist_ok=True) that returns leaves a directory there. *)
Lemma run_makedirs_dir p s s' :
  p <> [] -> run (makedirs p true) s = (Ok tt, s') -> s' p = Some Dir.
Proof.
  intros Hp. unfold makedirs. destruct (rev p) as [|c t] eqn:E.
  { exfalso. apply Hp. rewrite <- (rev_involutive p), E. reflexivity. }
  assert (Ep : rev (c :: t) = p) by (rewrite <- E; apply rev_involutive).
  cbn [makedirs_rev]. rewrite run_bind. rewrite run_call. cbn [exec fst snd].
  set (b := match s (rev t) with Some _ => true | None => false end).
  rewrite run_bind. destruct (run _ s) as [[u|e] s1] eqn:E1; [|discriminate].
  rewrite run_bind, run_call. rewrite Ep. intros H.
  simpl in H. destruct (s1 p) as [n|] eqn:E2.
  - simpl in H. rewrite E2 in H. destruct n; [|discriminate]. inversion H; subst. exact E2.
  - destruct (s1 (parent p)) as [[|d]|] eqn:E3; simpl in H.
    + inversion H; subst. apply upd_same.
    + rewrite E2 in H. discriminate.
    + rewrite E2 in H. discriminate.
Qed.

(** ** Writing a file *)
Lemma run_write_file p d s :
  run (write_file p d) s =
  match fst (exec (OpenW p) s) with
  | Ok _ => (Ok tt, upd s p (File d))
  | Err e => (Err e, s)
  end.
Proof.
  unfold write_file. rewrite run_bind, run_callE.
  destruct (exec (OpenW p) s) as [[u|e] s'] eqn:E; cbn [fst].
  - rewrite run_call. cbn in E |- *.
    assert (s' = upd s p (File Partial)) as ->.
    { destruct (s p) as [[|x]|]; try (inversion E; reflexivity).
      destruct (s (parent p)) as [[|x]|]; inversion E; reflexivity. }
    rewrite upd_same, upd_upd. reflexivity.
  - cbn in E. destruct (s p) as [[|x]|]; try (inversion E; reflexivity).
    destruct (s (parent p)) as [[|x]|]; inversion E; reflexivity.
Qed.
Lemma run_write_ok p d s s' : run (write_file p d) s = (Ok tt, s') -> s' = upd s p (File d).
Proof. rewrite run_write_file. destruct (fst _); intros H; inversion H; reflexivity. Qed.
Lemma write_file_only M (W : path -> Prop) p d : W p -> only M W (write_file p d).
Proof. intros H. cbn. repeat split; auto. intros [u|e]; cbn; auto. Qed.
Lemma write_file_in_dir d f dc s : s d = Some Dir -> s (d ++ [f]) <> Some Dir ->
  run (write_file (d ++ [f]) dc) s = (Ok tt, upd s (d ++ [f]) (File dc)).
Proof.
  intros Hd Hf. rewrite run_write_file. cbn. rewrite parent_snoc, Hd.
  destruct (s (d ++ [f])) as [[|x]|]; try reflexivity. congruence.
Qed.

(** ** A list of updates *)
Fixpoint apply_writes (s : fs) (l : list (path * node)) : fs :=
  match l with [] => s | (p, n) :: t => apply_writes (upd s p n) t end.
Lemma apply_writes_app s a b : apply_writes s (a ++ b) = apply_writes (apply_writes s a) b.
Proof. revert s. induction a as [|[p n] t IH]; intros s; simpl; auto. Qed.
Lemma apply_writes_other s l q : ~ In q (map fst l) -> apply_writes s l q = s q.
Proof.
  revert s. induction l as [|[p n] t IH]; intros s H; simpl in *; auto.
  rewrite IH; [|tauto]. apply upd_other. intros ->. tauto.
Qed.
(** A path written once in the list, or always with the same node. *)
Lemma apply_writes_in s l q n : In (q, n) l -> (forall m, In (q, m) l -> m = n) -> apply_writes s l q = Some n.
Proof.
  revert s. induction l as [|[p m] t IH]; intros s Hin Hu; [destruct Hin|]. simpl.
  destruct (in_dec path_eq_dec q (map fst t)) as [Ht|Ht].
  - apply in_map_iff in Ht. destruct Ht as ([q' m'] & Eq & Ht). simpl in Eq. subst q'.
    apply IH; [|intros; apply Hu; right; assumption].
    rewrite <- (Hu m' (or_intror Ht)). exact Ht.
  - rewrite apply_writes_other by exact Ht. destruct Hin as [E|Hin].
    + inversion E; subst. apply upd_same.
    + exfalso. apply Ht. apply in_map_iff. exists (q, n). auto.
Qed.
Lemma apply_writes_some s l q : In q (map fst l) -> exists n, In (q, n) l /\ apply_writes s l q = Some n.
Proof.
  revert s. induction l as [|[p m] t IH]; intros s Hin; [destruct Hin|]. simpl.
  destruct (in_dec path_eq_dec q (map fst t)) as [Ht|Ht].
  - destruct (IH (upd s p m) Ht) as (n & H1 & H2). exists n. auto.
  - rewrite apply_writes_other by exact Ht. destruct Hin as [E|Hin]; [|contradiction].
    simpl in E. subst. exists m. split; [auto|apply upd_same].
Qed.

(** ** Well-formed file systems: the root is a directory, every node lies in one. *)
Definition wf (s : fs) : Prop := s [] = Some Dir /\ forall p c, s (p ++ [c]) <> None -> s p = Some Dir.
Lemma wf_under s p t : wf s -> s p = None -> s (p ++ t) = None.
Proof.
  intros [_ H] Hp. induction t as [|c t IH] using rev_ind; [rewrite app_nil_r; exact Hp|].
  destruct (s (p ++ t ++ [c])) eqn:E; [|reflexivity].
  rewrite app_assoc in E. assert (X : s (p ++ t) = Some Dir) by (apply (H _ c); rewrite E; discriminate). congruence.
Qed.
Lemma wf_upd_dir s p n : wf s -> s (parent p) = Some Dir -> s p = None -> wf (upd s p n).
Proof.
  intros W Hp Hn. assert (Hpn : p <> []) by (intros ->; destruct W as [W0 _]; congruence).
  split.
  - rewrite upd_other by congruence. apply W.
  - intros q c H. destruct (path_eq_dec (q ++ [c]) p) as [E|E].
    + subst p. rewrite parent_snoc in Hp. rewrite upd_other; [exact Hp|].
      intros E. apply (f_equal (@length _)) in E. rewrite app_length in E. simpl in E. lia.
    + rewrite upd_other in H by exact E. destruct W as [_ W].
      destruct (path_eq_dec q p) as [->|E2].
      * exfalso. apply W in H. congruence.
      * rewrite upd_other by exact E2. eapply W; eauto.
Qed.
Lemma wf_upd_file s p d d' : wf s -> s p = Some (File d) -> wf (upd s p (File d')).
Proof.
  intros W Hp. split.
  - rewrite upd_other; [apply W|]. intros E. subst. destruct W as [W0 _]. congruence.
  - intros q c H. destruct W as [_ W]. destruct (path_eq_dec q p) as [->|E2].
    + exfalso. destruct (path_eq_dec (p ++ [c]) p) as [E|E].
      * apply (f_equal (@length _)) in E. rewrite app_length in E. simpl in E. lia.
      * rewrite upd_other in H by exact E. apply W in H. congruence.
    + rewrite upd_other by exact E2. destruct (path_eq_dec (q ++ [c]) p) as [E|E].
      * apply (W q c). rewrite E. congruence.
      * rewrite upd_other in H by exact E. eapply W; eauto.
Qed.
(** Every program keeps the file system well formed. *)
Lemma exec_wf {X} (o : op X) s : wf s -> wf (snd (exec o s)).
Proof.
  intros W. destruct o; simpl; auto.
  - destruct (s p) eqn:E; auto. destruct (s (parent p)) as [[|d]|] eqn:E2; simpl; auto. apply wf_upd_dir; auto.
  - destruct (s p) as [[|d]|] eqn:E; simpl; auto; [eapply wf_upd_file; eauto|].
    destruct (s (parent p)) as [[|d]|] eqn:E2; simpl; auto. apply wf_upd_dir; auto.
  - destruct (s p) as [[|d']|] eqn:E; simpl; auto. eapply wf_upd_file; eauto.
Qed.
Lemma steps_wf {A} n (p : prog A) s : wf s -> wf (snd (steps n p s)).
Proof.
  revert p s. induction n as [|n IH]; intros p s W; [destruct p; exact W|].
  destruct p as [a|e|X o k]; simpl; auto. destruct (exec o s) as [x s'] eqn:E. apply IH.
  replace s' with (snd (exec o s)) by (rewrite E; reflexivity). apply exec_wf, W.
Qed.
Lemma run_wf {A} (p : prog A) s : wf s -> wf (snd (run p s)).
Proof.
  revert s. induction p as [a|e|X o k IH]; intros s W; simpl; auto.
  destruct (exec o s) as [x s'] eqn:E. apply IH.
  replace s' with (snd (exec o s)) by (rewrite E; reflexivity). apply exec_wf, W.
Qed.
