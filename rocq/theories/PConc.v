(** Two runs at the same time: rely/guarantee reasoning over [interleave]. *)
From Coq Require Import String Ascii List Sorted FunctionalExtensionality.
From Verif Require Import PyBase PyLib Num MZernike SZernike PEnum MMath MAperture PPhase MRad MCore PParams MFs MOut PFs PStr PFit SOut SFit PFit2 PFit3 PFit4 PFit5 PFit6 PFit7 PFit8.
Import ListNotations.
Open Scope R_scope.
Open Scope string_scope.
Open Scope list_scope.
Open Scope prog_scope.

(** ** Robust execution: [E] is what the others may do, [G] what one step does. *)
Fixpoint sure {A} (E G : fs -> fs -> Prop) (Q : res A -> fs -> Prop) (p : prog A) (s : fs) : Prop :=
  forall s', E s s' ->
  match p with
  | Ret a => Q (Ok a) s'
  | Raise e => Q (Err e) s'
  | Do _ o k => G s' (snd (exec o s')) /\ sure E G Q (k (fst (exec o s'))) (snd (exec o s'))
  end.

Lemma sure_env {A} (E G : fs -> fs -> Prop) Q (p : prog A) s s1 : (forall a b c, E a b -> E b c -> E a c) -> E s s1 -> sure E G Q p s -> sure E G Q p s1.
Proof. intros HT H1 H. destruct p; simpl in *; intros s' Hs'; apply H; eapply HT; eauto. Qed.
Lemma sure_bind {A B} (E G : fs -> fs -> Prop) (Q : res A -> fs -> Prop) (Q' : res B -> fs -> Prop) (p : prog A) (f : A -> prog B) s :
  (forall a, E a a) ->
  sure E G Q p s -> (forall a s', Q (Ok a) s' -> sure E G Q' (f a) s') -> (forall e s', Q (Err e) s' -> Q' (Err e) s') ->
  (forall a b c, E a b -> E b c -> E a c) -> sure E G Q' (bindP p f) s.
Proof.
  intros HR H Hf He HT. revert s H. induction p as [a|e|X o k IH]; intros s H; cbn [bindP].
  - apply Hf. apply H. apply HR.
  - intros s' Hs'. apply He. apply H. exact Hs'.
  - intros s' Hs'. destruct (H s' Hs') as [H1 H2]. split; [exact H1|]. apply IH. exact H2.
Qed.
Lemma sure_weaken {A} (E G : fs -> fs -> Prop) (Q Q' : res A -> fs -> Prop) (p : prog A) s :
  (forall r s', Q r s' -> Q' r s') -> sure E G Q p s -> sure E G Q' p s.
Proof.
  intros HQ. revert s. induction p as [a|e|X o k IH]; intros s H s' Hs'; simpl in *; auto.
  destruct (H s' Hs') as [H1 H2]. split; auto.
Qed.


Lemma sure_interleave {A B} (E1 G1 : fs -> fs -> Prop) (Q1 : res A -> fs -> Prop) (E2 G2 : fs -> fs -> Prop) (Q2 : res B -> fs -> Prop) sched p q s p' q' s' :
  (forall a b, G1 a b -> E2 a b) -> (forall a b, G2 a b -> E1 a b) ->
  (forall a, E1 a a) -> (forall a, E2 a a) ->
  (forall a b c, E1 a b -> E1 b c -> E1 a c) -> (forall a b c, E2 a b -> E2 b c -> E2 a c) ->
  sure E1 G1 Q1 p s -> sure E2 G2 Q2 q s -> interleave sched p q s = (p', q', s') ->
  sure E1 G1 Q1 p' s' /\ sure E2 G2 Q2 q' s'.
Proof.
  intros H12 H21 R1 R2 T1 T2. revert p q s. induction sched as [|b t IH]; intros p q s Hp Hq H; simpl in H.
  - inversion H; subst. auto.
  - destruct b.
    + destruct p as [a|e|X o k]; simpl in H; try (eapply IH; eauto; fail).
      destruct (exec o s) as [x s1] eqn:Ex. destruct (Hp s (R1 s)) as [G K]. rewrite Ex in G, K. simpl in G, K.
      eapply IH; [exact K| |exact H]. apply (sure_env _ _ _ _ s s1); [exact T2|apply H12, G|exact Hq].
    + destruct q as [a|e|X o k]; simpl in H; try (eapply IH; eauto; fail).
      destruct (exec o s) as [x s1] eqn:Ex. destruct (Hq s (R2 s)) as [G K]. rewrite Ex in G, K. simpl in G, K.
      eapply IH; [|exact K|exact H]. apply (sure_env _ _ _ _ s s1); [exact T1|apply H21, G|exact Hp].
Qed.
(** Everything both guarantees preserve is preserved. *)
Lemma interleave_keeps {A B} (E1 G1 : fs -> fs -> Prop) (Q1 : res A -> fs -> Prop) (E2 G2 : fs -> fs -> Prop) (Q2 : res B -> fs -> Prop) (I : fs -> Prop) sched p q s p' q' s' :
  (forall a b, G1 a b -> E2 a b) -> (forall a b, G2 a b -> E1 a b) ->
  (forall a, E1 a a) -> (forall a, E2 a a) ->
  (forall a b c, E1 a b -> E1 b c -> E1 a c) -> (forall a b c, E2 a b -> E2 b c -> E2 a c) ->
  (forall a b, G1 a b -> I a -> I b) -> (forall a b, G2 a b -> I a -> I b) ->
  sure E1 G1 Q1 p s -> sure E2 G2 Q2 q s -> interleave sched p q s = (p', q', s') -> I s -> I s'.
Proof.
  intros H12 H21 R1 R2 T1 T2 K1 K2. revert p q s. induction sched as [|b t IH]; intros p q s Hp Hq H Hi; simpl in H.
  - inversion H; subst. auto.
  - destruct b.
    + destruct p as [a|e|X o k]; simpl in H; try (eapply IH; eauto; fail).
      destruct (exec o s) as [x s1] eqn:Ex. destruct (Hp s (R1 s)) as [G K]. rewrite Ex in G, K. simpl in G, K.
      eapply IH; [exact K| |exact H|eapply K1; eauto]. apply (sure_env _ _ _ _ s s1); [exact T2|apply H12, G|exact Hq].
    + destruct q as [a|e|X o k]; simpl in H; try (eapply IH; eauto; fail).
      destruct (exec o s) as [x s1] eqn:Ex. destruct (Hq s (R2 s)) as [G K]. rewrite Ex in G, K. simpl in G, K.
      eapply IH; [|exact K|exact H|eapply K2; eauto]. apply (sure_env _ _ _ _ s s1); [exact T1|apply H21, G|exact Hp].
Qed.

(** ** Programs whose sequential run reads [A] and writes [W] only *)
Definition op_local (A W : path -> Prop) {X} (o : op X) : Prop :=
  match o with
  | Exists p | Isdir p | Read p => A p
  | Mkdir p | OpenW p => W p /\ A p /\ A (parent p)
  | Put p _ => W p /\ A p
  end.
Fixpoint localS {T} (A W : path -> Prop) (p : prog T) (s : fs) : Prop :=
  match p with Do _ o k => op_local A W o /\ localS A W (k (fst (exec o s))) (snd (exec o s)) | _ => True end.
Lemma localS_bind {T U} A W (p : prog T) (f : T -> prog U) s :
  localS A W p s -> (forall a s', run p s = (Ok a, s') -> localS A W (f a) s') -> localS A W (bindP p f) s.
Proof.
  revert s. induction p as [a|e|X o k IH]; intros s H Hf; simpl in *.
  - apply Hf. reflexivity.
  - exact I.
  - destruct H as [H1 H2]. split; [exact H1|]. apply IH; [exact H2|]. intros a s' Hr. apply Hf.
    destruct (exec o s) as [x s1]. exact Hr.
Qed.
Lemma localS_lift {T} A W (r : res T) s : localS A W (lift r) s.
Proof. destruct r; exact I. Qed.

Definition agree (A : path -> Prop) (s s' : fs) : Prop := forall q, A q -> s q = s' q.
Lemma exec_agree {X} A W (o : op X) s s' : op_local A W o -> agree A s s' ->
  fst (exec o s) = fst (exec o s') /\ agree A (snd (exec o s)) (snd (exec o s')) /\ (forall q, ~ W q -> snd (exec o s) q = s q).
Proof.
  intros Hl Ha. assert (U : forall p n, agree A (upd s p n) (upd s' p n)).
  { intros p n q Hq. unfold upd. destruct (path_eq_dec q p); auto. }
  assert (UW : forall p n, W p -> forall q, ~ W q -> upd s p n q = s q).
  { intros p n Hp q Hq. apply upd_other. intros ->. contradiction. }
  destruct o; simpl in *.
  - rewrite (Ha p Hl). auto.
  - rewrite (Ha p Hl). auto.
  - destruct Hl as (H1 & H2 & H3). rewrite (Ha _ H2), (Ha _ H3). destruct (s' p) as [n|]; simpl; auto. destruct (s' (parent p)) as [[|d]|]; simpl; eauto.
  - destruct Hl as (H1 & H2 & H3). rewrite (Ha _ H2), (Ha _ H3). destruct (s' p) as [[|d]|]; simpl; eauto. destruct (s' (parent p)) as [[|d]|]; simpl; eauto.
  - destruct Hl as (H1 & H2). rewrite (Ha _ H2). destruct (s' p) as [[|d0]|]; simpl; eauto.
  - rewrite (Ha p Hl). auto.
Qed.
Lemma exec_dirs {X} (o : op X) s q : s q = Some Dir -> snd (exec o s) q = Some Dir.
Proof.
  intros H. destruct o; simpl; auto.
  - destruct (s p) eqn:E; simpl; auto. destruct (s (parent p)) as [[|d]|]; simpl; auto. rewrite upd_other; [exact H|]. intros ->. congruence.
  - destruct (s p) as [[|d]|] eqn:E; simpl; auto.
    + rewrite upd_other; [exact H|]. intros ->. congruence.
    + destruct (s (parent p)) as [[|d]|]; simpl; auto. rewrite upd_other; [exact H|]. intros ->. congruence.
  - destruct (s p) as [[|d0]|] eqn:E; auto. rewrite upd_other; [exact H|]. intros ->. congruence.
Qed.
Lemma run_dirs {T} (p : prog T) s q : s q = Some Dir -> snd (run p s) q = Some Dir.
Proof.
  revert s. induction p as [a|e|X o k IH]; intros s H; simpl; auto.
  destruct (exec o s) as [x s'] eqn:E. apply IH. replace s' with (snd (exec o s)) by (rewrite E; reflexivity). apply exec_dirs, H.
Qed.

(** Replaying the sequential run next to others that leave [A] alone. *)
Lemma lockstep {T} (A W : path -> Prop) (E G : fs -> fs -> Prop) (p : prog T) s s1 :
  (forall a b, E a b -> agree A s1 s1 -> agree A a b) ->
  (forall a b, (forall q, ~ W q -> b q = a q) -> (forall q, a q = Some Dir -> b q = Some Dir) -> G a b) ->
  (forall a b, E a b -> agree A a b) ->
  localS A W p s1 -> agree A s s1 ->
  sure E G (fun r s' => r = fst (run p s1) /\ agree A s' (snd (run p s1))) p s.
Proof.
  intros _ HG HE. revert s s1. induction p as [a|e|X o k IH]; intros s s1 Hl Ha; simpl; intros s' Hs'.
  - split; [reflexivity|]. intros q Hq. rewrite <- (HE _ _ Hs' q Hq). apply Ha, Hq.
  - split; [reflexivity|]. intros q Hq. rewrite <- (HE _ _ Hs' q Hq). apply Ha, Hq.
  - assert (Ha' : agree A s' s1) by (intros q Hq; rewrite <- (HE _ _ Hs' q Hq); apply Ha, Hq).
    destruct Hl as [Ho Hk]. destruct (exec_agree A W o s' s1 Ho Ha') as (F1 & F2 & F3). split.
    + apply HG; [exact F3|]. intros q. apply exec_dirs.
    + rewrite F1. destruct (exec o s1) as [x s2]. simpl in *. apply IH; assumption.
Qed.

(** ** Locality of the parts of fit_zpoly *)
Definition touched (a : fit_args) (q : path) : Prop := region a q \/ q = base_of a \/ cfg_of a q.

Lemma localS_makedirs (A W : path -> Prop) p c b s : s p = Some Dir -> W (p ++ [c]) -> A (p ++ [c]) -> A p -> localS A W (makedirs (p ++ [c]) b) s.
Proof.
  intros Hd H1 H2 H3. unfold makedirs. rewrite rev_unit. cbn [makedirs_rev call bindP localS]. rewrite rev_involutive. cbn [exec fst snd op_local].
  split; [exact H3|]. rewrite Hd. cbn [bindP localS]. assert (Er : rev (c :: rev p) = p ++ [c]) by (simpl; rewrite rev_involutive; reflexivity). rewrite Er. cbn [op_local]. rewrite parent_snoc. split; [auto|].
  cbn [exec]. destruct (s (p ++ [c])) as [n|] eqn:E; cbn [fst snd].
  - destruct b; [|exact I]. cbn [localS op_local]. split; [exact H2|]. destruct (fst _); exact I.
  - rewrite parent_snoc, Hd. exact I.
Qed.
Lemma localS_write (A W : path -> Prop) p dc s : W p -> A p -> A (parent p) -> localS A W (write_file p dc) s.
Proof.
  intros H1 H2 H3. cbn. split; [auto|].
  match goal with |- localS _ _ (bindP (lift ?r) _) _ => destruct r end; cbn; auto.
Qed.

Section Region.
Variable a : fit_args.
Let A := touched a.
Let W := region a.
Variables (d : path) (j : nat).
Hypothesis Hj : (j <= 100)%nat.
Hypothesis Hd : d = numbered (fit_dir a) (fa_name a) j.

Lemma W_below t : W (d ++ t).
Proof. subst d. exists j. split; [exact Hj|]. exists t. reflexivity. Qed.
Lemma A_below t : A (d ++ t).
Proof. left. apply W_below. Qed.
Lemma A_d : A d.
Proof. pose proof (A_below []) as H. rewrite app_nil_r in H. exact H. Qed.
Lemma local_write f dc s : localS A W (write_file (d ++ [f]) dc) s.
Proof. apply localS_write; [apply W_below|apply A_below|rewrite parent_snoc; apply A_d]. Qed.
Lemma local_save name l s : localS A W (save_all name d l) s.
Proof.
  revert s. induction l as [|[[f h] x] t IH]; intros s; [exact I|]. cbn [save_all]. apply localS_bind; [apply local_write|]. intros _ s' _. apply IH.
Qed.
Lemma local_order orc c snrs n s : s d = Some Dir -> localS A W (fit_order orc a c snrs d n) s.
Proof.
  intros Hdir. unfold fit_order. cbv zeta. apply localS_bind.
  { unfold start_params. destruct (_ && _); [|exact I]. apply localS_bind; [|intros; exact I].
    unfold read_parfit, callE. cbn [bindP localS op_local]. split; [apply A_below|]. apply localS_bind; [apply localS_lift|]. intros [] ? _; exact I. }
  intros init s0 H0. assert (s0 = s) by (eapply run_start_params_state; eauto). subst s0. clear H0.
  do 11 (apply localS_bind; [apply localS_lift|let H := fresh in let s0 := fresh in intros ? s0 H; rewrite run_lift in H; assert (s0 = s) by congruence; subst s0; clear H]).
  apply localS_bind.
  { unfold store_data_ascii. apply localS_bind; [apply localS_lift|]. intros tab s0 H0. apply local_write. }
  intros [] s2 H2. assert (D2 : s2 d = Some Dir).
  { match type of H2 with run ?p ?q = _ => replace s2 with (snd (run p q)) by (rewrite H2; reflexivity) end. apply run_dirs. assumption. }
  clear H2. apply localS_bind.
  { destruct (Nat.eqb n 1); [apply local_write|exact I]. }
  intros [] s3 H3. assert (D3 : s3 d = Some Dir).
  { match type of H3 with run ?p ?q = _ => replace s3 with (snd (run p q)) by (rewrite H3; reflexivity) end. apply run_dirs. assumption. }
  clear H3. apply localS_bind; [apply local_save|].
  intros [] s4 H4. assert (D4 : s4 d = Some Dir).
  { match type of H4 with run ?p ?q = _ => replace s4 with (snd (run p q)) by (rewrite H4; reflexivity) end. apply run_dirs. assumption. }
  clear H4. destruct (fa_make_plots a); [|exact I].
  unfold plot_fit_path. cbv zeta. cbn [call bindP localS op_local]. split; [apply A_below|]. cbn [exec fst snd].
  apply localS_bind.
  { destruct (s4 (d ++ ["plots"])) eqn:E; [exact I|]. apply localS_makedirs; [exact D4|apply W_below|apply A_below|apply A_d]. }
  intros [] s5 _. apply localS_bind.
  { match goal with |- localS _ _ (read_all _ ?l) _ => generalize l end. intros l. generalize s5. induction l as [|f t IH]; intros s6; [exact I|].
    cbn [read_all]. apply localS_bind; [|intros; apply IH]. cbn. split; [apply A_below|apply localS_lift]. }
  intros _ s6 _. apply localS_bind; [apply localS_lift|]. intros _ s7 _. generalize (pdf_names n). intros l. generalize s7.
  induction l as [|f t IH]; intros s8; [exact I|]. cbn [write_pdfs]. apply localS_bind; [|intros; apply IH].
  apply localS_write; rewrite <- ?app_assoc; [apply W_below|apply A_below|]. rewrite app_assoc, parent_snoc. apply A_below.
Qed.
Lemma local_orders orc c snrs l s : s d = Some Dir -> localS A W (fit_orders orc a c snrs d l) s.
Proof.
  revert s. induction l as [|n t IH]; intros s Hdir; [exact I|]. cbn [fit_orders]. apply localS_bind; [apply local_order, Hdir|].
  intros u s' H. apply IH. replace s' with (snd (run (fit_order orc a c snrs d n) s)) by (rewrite H; reflexivity). apply run_dirs, Hdir.
Qed.
End Region.

Lemma local_choose a js last s : (forall i, In i js -> (i <= 100)%nat) -> s (base_of a) = Some Dir ->
  localS (touched a) (region a) (choose_dir (base_of a) (fa_name a) js last) s.
Proof.
  intros Hjs Hb. revert last. induction js as [|i t IH]; intros last; [destruct last; exact I|]. cbn [choose_dir]. cbv zeta.
  assert (Ed : run_dir (base_of a) (fa_name a) i = numbered (fit_dir a) (fa_name a) i) by apply run_dir_numbered.
  assert (Hi : (i <= 100)%nat) by (apply Hjs; left; reflexivity).
  assert (RW : region a (run_dir (base_of a) (fa_name a) i)).
  { rewrite Ed. exists i. split; [exact Hi|]. exists []. rewrite app_nil_r. reflexivity. }
  cbn [call bindP localS op_local exec fst snd]. split; [left; exact RW|].
  destruct (s (run_dir (base_of a) (fa_name a) i)).
  - apply IH. intros k Hk. apply Hjs. right. exact Hk.
  - apply localS_bind; [|intros; exact I]. unfold run_dir. apply localS_makedirs; [exact Hb|exact RW|left; exact RW|right; left; reflexivity].
Qed.

Definition after_base (orc : oracle) (a : fit_args) (c : config) : prog unit :=
  d <- choose_dir (base_of a) (fa_name a) (seq 0 101) None ;;
  snrs <- lift (snr_values orc a) ;;
  fit_orders orc a c snrs d (seq 1 (fa_order_max a)).
Lemma local_after orc a c s : wf s -> s (base_of a) = Some Dir ->
  ((forall j, (j <= 100)%nat -> s (numbered (fit_dir a) (fa_name a) j) <> None) -> s (numbered (fit_dir a) (fa_name a) 100) = Some Dir) ->
  localS (touched a) (region a) (after_base orc a c) s.
Proof.
  intros HW Hb H100. unfold after_base. apply localS_bind; [apply local_choose; [intros i Hi; apply in_seq in Hi; lia|exact Hb]|].
  intros d s1 Hr. assert (X : exists j, (j <= 100)%nat /\ d = numbered (fit_dir a) (fa_name a) j /\ s1 d = Some Dir).
  { pose proof Hr as Hr'. apply choose_post in Hr'. unfold base_of in Hr'. destruct Hr' as [(pre & j & post & Hs & -> & _ & Hn & Hmk)|(Hall & -> & Hl)].
    - exists j. apply seq_split_lt in Hs. rewrite run_dir_numbered in *. split; [lia|]. split; [reflexivity|]. eapply run_makedirs_dir; [|exact Hmk].
      intros E. apply (f_equal (@length _)) in E. rewrite numbered_length in E. simpl in E. lia.
    - exists 100%nat. split; [lia|]. destruct Hl as [(E & _)|(pre & j & Hs & ->)]; [discriminate|].
      assert (El : last (seq 0 101) 0%nat = j) by (rewrite Hs; apply last_last). assert (j = 100%nat) as -> by (rewrite <- El; reflexivity).
      rewrite run_dir_numbered. split; [reflexivity|]. apply H100. intros j Hj. specialize (Hall j). rewrite run_dir_numbered in Hall. apply Hall. apply in_seq. lia. }
  destruct X as (j & Hj & Hd & Hdir). apply localS_bind; [apply localS_lift|]. intros snrs s2 H2. rewrite run_lift in H2. inversion H2; subst s2.
  eapply local_orders; eauto.
Qed.

(** ** Rely and guarantee of one run *)
Definition rely (a : fit_args) (s s' : fs) : Prop :=
  (forall q, region a q \/ cfg_of a q -> s' q = s q) /\ (forall q, s q = Some Dir -> s' q = Some Dir) /\
  (s (base_of a) = None -> s' (base_of a) = None \/ s' (base_of a) = Some Dir).
Definition guar (a : fit_args) (s s' : fs) : Prop :=
  (forall q, ~ region a q -> q <> base_of a -> s' q = s q) /\ (forall q, s q = Some Dir -> s' q = Some Dir) /\
  (s (base_of a) = None -> s' (base_of a) = None \/ s' (base_of a) = Some Dir).
Lemma rely_refl a s : rely a s s.
Proof. repeat split; auto. Qed.
Lemma rely_trans a x y z : rely a x y -> rely a y z -> rely a x z.
Proof.
  intros (A1 & A2 & A3) (B1 & B2 & B3). split; [|split].
  - intros q Hq. rewrite B1, A1; auto.
  - auto.
  - intros H. destruct (A3 H) as [H'|H']; [auto|]. right. auto.
Qed.

Definition usable_base (a : fit_args) (s : fs) : Prop := s (base_of a) = None \/ s (base_of a) = Some Dir.
Lemma base_not_region a : ~ region a (base_of a).
Proof.
  intros (j & _ & t & E). apply (f_equal (@length _)) in E. unfold base_of in E. rewrite !app_length in E.
  rewrite numbered_length in E. simpl in E. lia.
Qed.

Lemma solo_run orc a s : usable (fit_dir a) s ->
  run (fit_zpoly orc a) s = match run (load_config (fa_config_file a)) s with
    | (Ok c, _) => run (after_base orc a c) (upd s (base_of a) Dir) | (Err e, _) => (Err e, s) end.
Proof.
  intros [Hw Hb]. unfold fit_zpoly. cbv zeta. fold (fit_dir a). rewrite run_bind.
  destruct (run (load_config (fa_config_file a)) s) as [[c|e] s0] eqn:El.
  - assert (s0 = s) by (eapply load_state; eauto). subst s0. unfold pick_dir, after_base. cbv zeta. fold (base_of a).
    rewrite run_bind. rewrite run_bind, run_call. cbn [exec fst snd]. rewrite run_bind.
    assert (E : run (if match s (base_of a) with Some _ => true | None => false end then Ret tt else makedirs (base_of a) true) s
       = (Ok tt, upd s (base_of a) Dir)).
    { destruct Hb as [Hb|Hb]; fold (base_of a) in Hb; rewrite Hb.
      - apply run_makedirs_new; assumption.
      - simpl. rewrite upd_id by exact Hb. reflexivity. }
    rewrite E. rewrite run_bind. reflexivity.
  - destruct (fa_config_file a) as [p|]; cbn in El; [|discriminate]. destruct (s p) as [[|[]]|]; simpl in El; inversion El; reflexivity.
Qed.

(** Invariant before pyoof_out is settled. *)
Definition before (a : fit_args) (s0 s : fs) : Prop :=
  agree (fun q => region a q \/ cfg_of a q) s s0 /\ s (fit_dir a) = Some Dir /\ usable_base a s.
Lemma before_rely a s0 s s' : before a s0 s -> rely a s s' -> before a s0 s'.
Proof.
  intros (B1 & B2 & B3) (R1 & R2 & R3). split; [|split].
  - intros q Hq. rewrite R1 by exact Hq. apply B1, Hq.
  - auto.
  - destruct B3 as [B3|B3]; [exact (R3 B3)|right; auto].
Qed.
Lemma guar_refl a s : guar a s s.
Proof. repeat split; auto. Qed.

Lemma sure_fit_from orc a s sa : wf s -> usable (fit_dir a) s -> (cfg_of a (base_of a) -> False) ->
  ((forall j, (j <= 100)%nat -> s (numbered (fit_dir a) (fa_name a) j) <> None) -> s (numbered (fit_dir a) (fa_name a) 100) = Some Dir) ->
  before a s sa ->
  sure (rely a) (guar a) (fun r s' => r = fst (run (fit_zpoly orc a) s) /\ agree (region a) s' (snd (run (fit_zpoly orc a) s))) (fit_zpoly orc a) sa.
Proof.
  intros HW Hu Hcb H100 B0. rewrite (solo_run orc a s Hu). pose proof Hu as [Hw Hb]. fold (base_of a) in Hb.
  unfold fit_zpoly. cbv zeta. fold (fit_dir a).
  set (Q0 := fun (r : res config) s' => r = fst (run (load_config (fa_config_file a)) s) /\ before a s s').
  apply (sure_bind _ _ Q0).
  - apply rely_refl.
  - unfold Q0. unfold load_config. destruct (fa_config_file a) as [p|] eqn:Ecf.
    + cbn [callE bindP sure]. intros s' Hs'. split; [apply guar_refl|]. pose proof (before_rely _ _ _ _ B0 Hs') as B1.
      assert (Ep : s' p = s p) by (apply B1; right; exact Ecf). cbn [exec fst snd run]. rewrite Ep.
      destruct (s p) as [[|[]]|]; cbn; intros s2 Hs2; (split; [reflexivity|eapply before_rely; eauto]).
    + intros s' Hs'. split; [reflexivity|eapply before_rely; eauto].
  - intros c s' [Hc HB]. rewrite (surjective_pairing (run (load_config (fa_config_file a)) s)). rewrite <- Hc. clear Hc.
    unfold pick_dir. cbv zeta. fold (base_of a). rewrite bind_assoc.
    set (s1 := upd s (base_of a) Dir).
    assert (Hs1 : forall q, before a s q -> q (base_of a) = Some Dir -> agree (touched a) q s1).
    { intros q (A1 & _ & _) Hq x [Hx|[->|Hx]]; unfold s1.
      - rewrite upd_other; [apply A1; auto|]. intros ->. exact (base_not_region a Hx).
      - rewrite upd_same. exact Hq.
      - rewrite upd_other; [apply A1; auto|]. intros ->. auto. }
    assert (HWs1 : wf s1).
    { unfold s1. destruct Hb as [Hb|Hb].
      - apply wf_upd_dir; [exact HW| |exact Hb]. unfold base_of. rewrite parent_snoc. exact Hw.
      - rewrite upd_id by exact Hb. exact HW. }
    assert (Hlast : forall q, before a s q -> q (base_of a) = Some Dir ->
      sure (rely a) (guar a) (fun r s' => r = fst (run (after_base orc a c) s1) /\ agree (region a) s' (snd (run (after_base orc a c) s1))) (after_base orc a c) q).
    { intros q Hq Hqb. (* keep base = Dir in the rely *)
      set (E2 := fun x y => rely a x y /\ (x (base_of a) = Some Dir)).
      assert (L : forall (T : Type) (p : prog T) x y, localS (touched a) (region a) p y -> agree (touched a) x y -> x (base_of a) = Some Dir ->
        sure (rely a) (guar a) (fun r s' => r = fst (run p y) /\ agree (touched a) s' (snd (run p y))) p x).
      { clear. intros T p. induction p as [t|e|X o k IH]; intros x y Hl Ha Hx; simpl; intros s' Hs'.
        - split; [reflexivity|]. intros q Hq. destruct Hs' as (R1 & R2 & _). rewrite <- (Ha q Hq). destruct Hq as [Hq|[->|Hq]]; [apply R1; auto|rewrite R2 by exact Hx; congruence|apply R1; auto].
        - split; [reflexivity|]. intros q Hq. destruct Hs' as (R1 & R2 & _). rewrite <- (Ha q Hq). destruct Hq as [Hq|[->|Hq]]; [apply R1; auto|rewrite R2 by exact Hx; congruence|apply R1; auto].
        - assert (Ha' : agree (touched a) s' y).
          { intros q Hq. destruct Hs' as (R1 & R2 & _). rewrite <- (Ha q Hq). destruct Hq as [Hq|[->|Hq]]; [apply R1; auto|rewrite R2 by exact Hx; congruence|apply R1; auto]. }
          assert (Hx' : s' (base_of a) = Some Dir) by (apply Hs', Hx).
          destruct Hl as [Ho Hk]. destruct (exec_agree _ _ o s' y Ho Ha') as (F1 & F2 & F3). split.
          + split; [|split].
            * intros q Hq _. apply F3, Hq.
            * intros q. apply exec_dirs.
            * congruence.
          + rewrite F1. destruct (exec o y) as [u y2]. simpl in *. apply IH; [exact Hk|exact F2|]. apply exec_dirs, Hx'. }
      eapply sure_weaken; [|apply (L unit (after_base orc a c) q s1)].
      - intros r s2 [H1 H2]. split; [exact H1|]. intros x Hx. apply H2. left. exact Hx.
      - apply local_after; [exact HWs1|unfold s1; apply upd_same|]. assert (On : forall j, s1 (numbered (fit_dir a) (fa_name a) j) = s (numbered (fit_dir a) (fa_name a) j)).
        { intros j. unfold s1. apply upd_other. apply not_eq_sym, base_not_numbered, is_prefix_refl. }
        rewrite On. intros Hall. apply H100. intros j Hj. rewrite <- On. apply Hall, Hj.
      - apply Hs1; assumption.
      - exact Hqb. }
    unfold after_base in Hlast. cbn [call bindP sure]. intros s2 Hs2. split; [apply guar_refl|]. cbn [exec fst snd].
    pose proof (before_rely _ _ _ _ HB Hs2) as B2. pose proof B2 as (_ & W2 & [U2|U2]); rewrite U2.
    2:{ apply Hlast; assumption. }
    rewrite bind_assoc. unfold base_of at 1. unfold makedirs. rewrite rev_unit. cbn [makedirs_rev call bindP sure]. rewrite !rev_involutive.
    intros s3 Hs3. split; [apply guar_refl|]. cbn [exec fst snd]. pose proof (before_rely _ _ _ _ B2 Hs3) as B3. pose proof B3 as (_ & W3 & _). rewrite W3.
    cbn [bindP sure]. replace (rev ("pyoof_out" :: rev (fit_dir a))) with (base_of a) by (simpl; rewrite rev_involutive; reflexivity). intros s4 Hs4. pose proof (before_rely _ _ _ _ B3 Hs4) as B4. pose proof B4 as (A4 & W4 & [U4|U4]).
    + cbn [exec]. rewrite U4. assert (Pb : parent (base_of a) = fit_dir a) by apply parent_snoc. rewrite Pb, W4. cbn [fst snd]. split.
      * split; [|split].
        -- intros q _ Hq. apply upd_other, Hq.
        -- intros q Hq. unfold upd. destruct (path_eq_dec _ _); auto.
        -- intros _. right. apply upd_same.
      * cbn [bindP]. apply Hlast; [|apply upd_same]. split; [|split].
        -- intros q Hq. rewrite upd_other; [apply A4, Hq|]. intros ->. destruct Hq as [Hq|Hq]; [exact (base_not_region a Hq)|auto].
        -- unfold upd. destruct (path_eq_dec _ _); auto.
        -- right. apply upd_same.
    + cbn [exec]. rewrite U4. cbn [fst snd]. split; [apply guar_refl|]. cbn [call bindP sure]. 
      intros s5 Hs5. split; [apply guar_refl|]. pose proof (before_rely _ _ _ _ B4 Hs5) as B5. assert (U5 : s5 (base_of a) = Some Dir) by (apply Hs5, U4).
      cbn [exec fst snd]. rewrite U5. cbn [bindP]. apply Hlast; assumption.
  - intros e s' [He HB]. rewrite (surjective_pairing (run (load_config (fa_config_file a)) s)). rewrite <- He. split; [reflexivity|].
    intros q Hq. apply HB. left. exact Hq.
  - apply rely_trans.
Qed.

Lemma sure_fit orc a s : wf s -> usable (fit_dir a) s -> (cfg_of a (base_of a) -> False) ->
  s (numbered (fit_dir a) (fa_name a) 100) = None \/ s (numbered (fit_dir a) (fa_name a) 100) = Some Dir ->
  sure (rely a) (guar a) (fun r s' => r = fst (run (fit_zpoly orc a) s) /\ agree (region a) s' (snd (run (fit_zpoly orc a) s))) (fit_zpoly orc a) s.
Proof.
  intros HW Hu Hcb H100. apply sure_fit_from; try assumption.
  - intros Hall. destruct H100 as [H|H]; [|exact H]. exfalso. exact (Hall 100%nat (le_n _) H).
  - destruct Hu. repeat split; auto.
Qed.

(** ** Two runs *)

Lemma prefixes_compare (p q r : path) : above p r -> above q r -> above p q \/ above q p.
Proof.
  revert q r. induction p as [|x p IH]; intros q r [t Ht] [u Hu].
  - left. exists q. reflexivity.
  - destruct q as [|y q]; [right; exists (x :: p); reflexivity|]. subst r. simpl in Hu. inversion Hu; subst.
    destruct (IH q (p ++ t)) as [[v ->]|[v ->]].
    + exists t. reflexivity.
    + exists u. assumption.
    + left. exists v. reflexivity.
    + right. exists v. reflexivity.
Qed.
Lemma regions_disjoint a b q : separate a b -> region a q -> region b q -> False.
Proof.
  intros [S1 S2] (j & _ & Hj) (k & _ & Hk). destruct (prefixes_compare _ _ _ Hj Hk) as [H|H]; [exact (S1 _ _ H)|exact (S2 _ _ H)].
Qed.
Lemma base_not_other a b : separate a b -> ~ region b (base_of a).
Proof.
  intros [S1 S2] (k & _ & t & E). apply (S2 0%nat k). exists (t ++ [fa_name a ^^ "-" ^^ pad3 0]).  
  rewrite app_assoc, <- E. unfold base_of, numbered. rewrite <- app_assoc. reflexivity.
Qed.
Lemma guar_rely a b : separate a b -> config_clear b a -> forall s s', guar a s s' -> rely b s s'.
Proof.
  intros Hs Hc s s' (G1 & G2 & G3). split; [|split].
  - intros q [Hq|Hq].
    + apply G1; [intros H; eapply regions_disjoint; eauto|]. intros ->. eapply base_not_other; eauto.
    + apply G1; apply Hc; exact Hq.
  - exact G2.
  - intros H. destruct (list_eq_dec string_dec (base_of b) (base_of a)) as [E|E].
    + rewrite E in *. auto.
    + left. rewrite G1; [exact H| |exact E]. apply base_not_other. destruct Hs as [X Y]. split; intros j k; auto.
Qed.
Lemma separate_sym a b : separate a b -> separate b a.
Proof. intros [H1 H2]. split; intros j k; auto. Qed.
Lemma separate_names a b : fit_dir a = fit_dir b -> fa_name a <> fa_name b -> separate a b.
Proof.
  intros Hd Hn. assert (X : forall n1 n2 j k, n1 <> n2 -> ~ above (numbered (fit_dir b) n1 j) (numbered (fit_dir b) n2 k)).
  { intros n1 n2 j k Hne [t E]. assert (t = []) as ->.
    { apply (f_equal (@length _)) in E. rewrite app_length, !numbered_length in E. destruct t; [reflexivity|simpl in E; lia]. }
    rewrite app_nil_r in E. apply numbered_inj in E. destruct E as [E _]. congruence. }
  split; intros j k; rewrite Hd; apply X; congruence.
Qed.


Lemma concurrent oa ob a b s sched p' q' s' ra rb :
  wf s -> usable (fit_dir a) s -> usable (fit_dir b) s -> no_file_100 a s -> no_file_100 b s ->
  separate a b -> config_clear a b -> config_clear b a -> ~ cfg_of a (base_of a) -> ~ cfg_of b (base_of b) ->
  interleave sched (fit_zpoly oa a) (fit_zpoly ob b) s = (p', q', s') ->
  finished p' = Some ra -> finished q' = Some rb ->
  ra = fst (run (fit_zpoly oa a) s) /\ rb = fst (run (fit_zpoly ob b) s) /\
  (forall q, region a q -> s' q = snd (run (fit_zpoly oa a) s) q) /\
  (forall q, region b q -> s' q = snd (run (fit_zpoly ob b) s) q) /\
  (forall q, ~ region a q -> ~ region b q -> q <> base_of a -> q <> base_of b -> s' q = s q).
Proof.
  intros W Ua Ub Na Nb Hs Ca Cb Xa Xb H Fa Fb.
  pose proof (sure_fit oa a s W Ua Xa Na) as Sa. pose proof (sure_fit ob b s W Ub Xb Nb) as Sb.
  pose proof (guar_rely a b Hs Cb) as Gab. pose proof (guar_rely b a (separate_sym _ _ Hs) Ca) as Gba.
  destruct (sure_interleave _ _ _ _ _ _ sched _ _ _ _ _ _ Gab Gba (rely_refl a) (rely_refl b) (rely_trans a) (rely_trans b) Sa Sb H) as [Pa Pb].
  assert (Ka : ra = fst (run (fit_zpoly oa a) s) /\ agree (region a) s' (snd (run (fit_zpoly oa a) s))).
  { destruct p'; simpl in Fa; inversion Fa; subst; apply Pa, rely_refl. }
  assert (Kb : rb = fst (run (fit_zpoly ob b) s) /\ agree (region b) s' (snd (run (fit_zpoly ob b) s))).
  { destruct q'; simpl in Fb; inversion Fb; subst; apply Pb, rely_refl. }
  destruct Ka as [Ka1 Ka2]. destruct Kb as [Kb1 Kb2]. repeat match goal with |- _ /\ _ => split end; auto.
  intros q H1 H2 H3 H4.
  refine (interleave_keeps _ _ _ _ _ _ (fun x => x q = s q) sched _ _ _ _ _ _ Gab Gba (rely_refl a) (rely_refl b) (rely_trans a) (rely_trans b) _ _ Sa Sb H eq_refl).
  - intros x y (G & _) E. rewrite G; auto.
  - intros x y (G & _) E. rewrite G; auto.
Qed.
