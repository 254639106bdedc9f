(** The batch divided over processes (scripts/pyoof_effelsberg_mpi.py). *)
From Coq Require Import String Ascii List Lia FunctionalExtensionality.
From Verif Require Import PyBase PyLib Num MZernike MMath MAperture MRad MCore MFs MOut MAct MAux SAux SOut SFit MTab MScript SScript PFs PStr PFit PFit2 PFit3 PFit4 PFit5 PFit6 PFit7 PFit8 PFit9 PConc PCrash PAux PConc2 PScript.
Import ListNotations.
Open Scope R_scope.
Open Scope string_scope.
Open Scope list_scope.
Open Scope prog_scope.

(** ** array_split *)
Lemma fold_plus_repeat x n : fold_right Nat.add 0%nat (repeat x n) = (n * x)%nat.
Proof. induction n; cbn; lia. Qed.
Lemma section_sizes_sum n k : (0 < k)%nat -> fold_right Nat.add 0%nat (section_sizes n k) = n.
Proof.
  intros Hk. unfold section_sizes. rewrite fold_right_app, fold_plus_repeat.
  assert (E : forall a m, fold_right Nat.add a (repeat (n / k + 1)%nat m) = (m * (n / k + 1) + a)%nat) by (intros a m; induction m; cbn; lia).
  rewrite E. pose proof (Nat.div_mod n k ltac:(lia)) as D. pose proof (Nat.mod_upper_bound n k ltac:(lia)) as M. nia.
Qed.
Lemma sections_concat {A} (l : list A) sizes : fold_right Nat.add 0%nat sizes = length l -> concat (sections l sizes) = l.
Proof.
  revert l. induction sizes as [|n t IH]; intros l H; cbn in *.
  - destruct l; [reflexivity|discriminate].
  - rewrite IH; [apply firstn_skipn|]. rewrite skipn_length. lia.
Qed.
Lemma sections_sizes {A} (l : list A) sizes : (fold_right Nat.add 0%nat sizes <= length l)%nat -> map (@length A) (sections l sizes) = sizes.
Proof.
  revert l. induction sizes as [|n t IH]; intros l H; cbn in *; [reflexivity|].
  rewrite firstn_length, Nat.min_l by lia. f_equal. apply IH. rewrite skipn_length. lia.
Qed.
Lemma split_concat {A} (l : list A) k : (0 < k)%nat -> concat (array_split l k) = l.
Proof. intros H. apply sections_concat, section_sizes_sum, H. Qed.
Lemma split_sizes {A} (l : list A) k : (0 < k)%nat -> map (@length A) (array_split l k) = section_sizes (length l) k.
Proof. intros H. apply sections_sizes. rewrite section_sizes_sum by exact H. lia. Qed.
Lemma split_length {A} (l : list A) k : (0 < k)%nat -> length (array_split l k) = k.
Proof.
  intros H. rewrite <- (map_length (@length A)), split_sizes by exact H. unfold section_sizes. rewrite app_length, !repeat_length.
  pose proof (Nat.mod_upper_bound (length l) k ltac:(lia)). lia.
Qed.
Lemma split_even {A} (l : list A) k a b : (0 < k)%nat -> In a (array_split l k) -> In b (array_split l k) -> (length a <= S (length b))%nat.
Proof.
  intros H Ha Hb. assert (X : forall c, In c (array_split l k) -> length c = (length l / k)%nat \/ length c = S (length l / k)).
  { intros c Hc. apply (in_map (@length A)) in Hc. rewrite split_sizes in Hc by exact H. unfold section_sizes in Hc. apply in_app_or in Hc. destruct Hc as [Hc|Hc]; apply repeat_spec in Hc; lia. }
  pose proof (X a Ha). pose proof (X b Hb). lia.
Qed.
Lemma sections_forall2 {A B} (P : A -> B -> Prop) l m sizes : Forall2 P l m -> Forall2 (Forall2 P) (sections l sizes) (sections m sizes).
Proof.
  revert l m. induction sizes as [|n t IH]; intros l m H; [constructor|]. cbn [sections].
  assert (X : Forall2 P (firstn n l) (firstn n m) /\ Forall2 P (skipn n l) (skipn n m)).
  { revert n. induction H as [|x y l m Hx H IHl]; intros [|n]; cbn; try (split; constructor; auto; fail). destruct (IHl n). split; [constructor|]; auto. }
  destruct X as [X Y]. constructor; [exact X|]. apply IH, Y.
Qed.
Lemma split_forall2 {A B} (P : A -> B -> Prop) l m k : Forall2 P l m -> Forall2 (Forall2 P) (array_split l k) (array_split m k).
Proof.
  intros H. unfold array_split. replace (length m) with (length l) by (clear k; induction H; cbn; congruence). apply sections_forall2, H.
Qed.

(** ** Any number of programs *)
Lemma nth_error_set {A} (l : list A) i j x : nth_error (set_nth i x l) j = if Nat.eqb i j then (match nth_error l i with Some _ => Some x | None => None end) else nth_error l j.
Proof.
  revert i j. induction l as [|y t IH]; intros i j.
  - cbn. destruct (Nat.eqb i j); destruct i, j; reflexivity.
  - destruct i as [|i], j as [|j]; cbn; try reflexivity. apply IH.
Qed.
Lemma set_nth_length {A} (l : list A) i x : length (set_nth i x l) = length l.
Proof. revert i. induction l as [|y t IH]; intros [|i]; cbn; auto. Qed.
Lemma steps1 {A} (p : prog A) s : steps 1 p s = match p with Do _ o k => (k (fst (exec o s)), snd (exec o s)) | _ => (p, s) end.
Proof. destruct p; cbn; try reflexivity. destruct (exec o s). reflexivity. Qed.

Lemma sure_interleave_all {A} (E G : nat -> fs -> fs -> Prop) (Q : nat -> res A -> fs -> Prop) (I : fs -> Prop) sched :
  (forall i j a b, i <> j -> G i a b -> E j a b) -> (forall i a, E i a a) -> (forall i a b c, E i a b -> E i b c -> E i a c) ->
  (forall i a b, G i a b -> I a -> I b) ->
  forall ps s ps' s', (forall i p, nth_error ps i = Some p -> sure (E i) (G i) (Q i) p s) -> I s -> interleave_all sched ps s = (ps', s') ->
  length ps' = length ps /\ I s' /\ forall i p, nth_error ps' i = Some p -> sure (E i) (G i) (Q i) p s'.
Proof.
  intros HG HR HT HI. induction sched as [|i t IH]; intros ps s ps' s' Hp Hi H; cbn [interleave_all] in H.
  - inversion H; subst. auto.
  - destruct (nth_error ps i) as [p|] eqn:Ei; [|eapply IH; eauto]. rewrite steps1 in H.
    destruct p as [a|e|X o k]; cbv beta iota in H.
    + destruct (IH (set_nth i (Ret a) ps) s ps' s') as (L & HI' & K); [|exact Hi|exact H|rewrite set_nth_length in L; auto].
      intros j p Hj. rewrite nth_error_set, Ei in Hj. destruct (Nat.eqb_spec i j) as [->|N]; [|apply Hp, Hj]. apply Hp. congruence.
    + destruct (IH (set_nth i (Raise e) ps) s ps' s') as (L & HI' & K); [|exact Hi|exact H|rewrite set_nth_length in L; auto].
      intros j p Hj. rewrite nth_error_set, Ei in Hj. destruct (Nat.eqb_spec i j) as [->|N]; [|apply Hp, Hj]. apply Hp. congruence.
    + pose proof (Hp i _ Ei s (HR i s)) as [Gs Ks].
      destruct (IH (set_nth i (k (fst (exec o s))) ps) (snd (exec o s)) ps' s') as (L & HI' & K); [|eapply HI; eauto|exact H|rewrite set_nth_length in L; auto].
      intros j p Hj. rewrite nth_error_set, Ei in Hj. destruct (Nat.eqb_spec i j) as [->|N].
      * inversion Hj; subst p. exact Ks.
      * eapply sure_env; [apply HT|eapply HG; eauto|apply Hp, Hj].
Qed.
Lemma sure_keep {A} (E G E' G' : fs -> fs -> Prop) (J : fs -> Prop) (Q : res A -> fs -> Prop) (p : prog A) s :
  (forall a b, E' a b -> E a b) -> (forall a b, G a b -> G' a b) -> (forall a b, E' a b -> J a -> J b) -> (forall a b, G a b -> J a -> J b) ->
  sure E G Q p s -> J s -> sure E' G' (fun r s' => Q r s' /\ J s') p s.
Proof.
  intros HE HG JE JG. revert s. induction p as [a|e|X o k IH]; intros s H Hj s' Hs'; simpl in *.
  - split; [apply H, HE, Hs'|eapply JE; eauto].
  - split; [apply H, HE, Hs'|eapply JE; eauto].
  - destruct (H s' (HE _ _ Hs')) as [H1 H2]. split; [apply HG, H1|]. apply IH; [exact H2|]. eapply JG; [exact H1|]. eapply JE; eauto.
Qed.
Lemma sure_run {A} (E G : fs -> fs -> Prop) (Q : res A -> fs -> Prop) (p : prog A) s :
  (forall a, E a a) -> (forall a, G a a) -> (forall a b c, G a b -> G b c -> G a c) -> sure E G Q p s -> G s (snd (run p s)).
Proof.
  intros HE HG HT. revert s. induction p as [a|e|X o k IH]; intros s H; [apply HG|apply HG|]. destruct (H s (HE s)) as [H1 H2].
  cbn [run]. destruct (exec o s) as [x s1]. cbn [fst snd] in *. eapply HT; [exact H1|]. apply IH, H2.
Qed.

(** ** One process: fits of its own names next to others *)
Section Rank.
Variables (w : path) (names : list string) (inputs : list path).
Definition own (q : path) : Prop := exists name j, In name names /\ (j <= 100)%nat /\ below (numbered w name j) q.
Let base : path := w ++ ["pyoof_out"].
Definition base_rule (s s' : fs) : Prop := s base = None -> s' base = None \/ s' base = Some Dir.
Definition relyN (s s' : fs) : Prop :=
  (forall q, own q \/ In q inputs -> s' q = s q) /\ (forall q, s q = Some Dir -> s' q = Some Dir) /\ base_rule s s'.
Definition guarN (s s' : fs) : Prop :=
  (forall q, ~ own q -> q <> base -> s' q = s q) /\ (forall q, s q = Some Dir -> s' q = Some Dir) /\ base_rule s s'.
Definition beforeN (s0 s : fs) : Prop := agree (fun q => own q \/ In q inputs) s s0 /\ usable w s.
Definition as_solo {A} (p : prog A) (s0 : fs) : Prop :=
  forall s, beforeN s0 s -> sure relyN guarN (fun r s' => r = fst (run p s0) /\ beforeN (snd (run p s0)) s') p s.

Lemma relyN_refl s : relyN s s.
Proof. repeat split; auto. intros H. auto. Qed.
Lemma relyN_trans x y z : relyN x y -> relyN y z -> relyN x z.
Proof.
  intros (A1 & A2 & A3) (B1 & B2 & B3). split; [|split].
  - intros q Hq. rewrite B1, A1; auto.
  - auto.
  - intros H. destruct (A3 H) as [H'|H']; [auto|]. right. auto.
Qed.
Lemma guarN_refl s : guarN s s.
Proof. repeat split; auto. intros H. auto. Qed.
Lemma beforeN_rely s0 s s' : beforeN s0 s -> relyN s s' -> beforeN s0 s'.
Proof.
  intros (B1 & B2 & B3) (R1 & R2 & R3). split; [|split].
  - intros q Hq. rewrite R1 by exact Hq. apply B1, Hq.
  - auto.
  - destruct B3 as [B3|B3]; [exact (R3 B3)|right; auto].
Qed.
Lemma as_solo_bind {A B} (p : prog A) (f : A -> prog B) s0 :
  as_solo p s0 -> (forall a s1, run p s0 = (Ok a, s1) -> as_solo (f a) s1) -> as_solo (bindP p f) s0.
Proof.
  intros Hp Hf s Hs. apply (sure_bind _ _ (fun r s' => r = fst (run p s0) /\ beforeN (snd (run p s0)) s')).
  - apply relyN_refl.
  - apply Hp, Hs.
  - intros a s' [E Hb]. assert (Er : run p s0 = (Ok a, snd (run p s0))) by (rewrite E; apply surjective_pairing).
    rewrite run_bind, Er. apply Hf; [exact Er|exact Hb].
  - intros e s' [E Hb]. assert (Er : run p s0 = (Err e, snd (run p s0))) by (rewrite E; apply surjective_pairing).
    rewrite run_bind, Er. split; [reflexivity|exact Hb].
  - apply relyN_trans.
Qed.
Lemma as_solo_lift {A} (r : res A) s0 : as_solo (lift r) s0.
Proof. intros s Hs. destruct r; intros s' Hs'; (split; [reflexivity|eapply beforeN_rely; eauto]). Qed.
Lemma as_solo_ret {A} (a : A) s0 : as_solo (Ret a) s0.
Proof. intros s Hs s' Hs'. split; [reflexivity|eapply beforeN_rely; eauto]. Qed.
Lemma as_solo_raise {A} e s0 : as_solo (Raise (A := A) e) s0.
Proof. intros s Hs s' Hs'. split; [reflexivity|eapply beforeN_rely; eauto]. Qed.
Lemma as_solo_read p s0 : own p \/ In p inputs -> as_solo (callE (Read p)) s0.
Proof.
  intros Hp s Hs s' Hs'. split; [apply guarN_refl|]. pose proof (beforeN_rely _ _ _ Hs Hs') as Hb. cbn [exec fst snd].
  rewrite run_callE. cbn [exec fst snd]. rewrite (proj1 Hb p Hp).
  match goal with |- sure _ _ _ (lift ?r) _ => destruct r end; intros s2 Hs2; (split; [reflexivity|eapply beforeN_rely; eauto]).
Qed.
Lemma as_solo_extract cwd f s0 : In (resolve cwd f) inputs -> as_solo (extract_data_effelsberg cwd f) s0.
Proof.
  intros Hin. unfold extract_data_effelsberg. destruct (negb _); [apply as_solo_raise|]. apply as_solo_bind.
  - unfold open_fits. apply as_solo_bind; [apply as_solo_read; right; exact Hin|]. intros d s1 _. destruct d; first [apply as_solo_ret|apply as_solo_raise].
  - intros ff s1 _. cbv zeta. repeat (apply as_solo_bind; [apply as_solo_lift|intros ? ? _]). apply as_solo_ret.
Qed.
Lemma guar_trans a x y z : guar a x y -> guar a y z -> guar a x z.
Proof.
  intros (A1 & A2 & A3) (B1 & B2 & B3). split; [|split].
  - intros q H1 H2. rewrite B1, A1; auto.
  - auto.
  - intros H. destruct (A3 H) as [H'|H']; [auto|]. right. auto.
Qed.

Lemma as_solo_fit orc a s0 : (forall q, In q inputs -> ~ below base q) ->
  fit_dir a = w -> In (fa_name a) names -> fa_config_file a = None -> wf s0 -> usable w s0 -> free_number a s0 -> as_solo (fit_zpoly orc a) s0.
Proof.
  intros Hin Ed En Ec W U Fr s Hs.
  assert (Eb : base_of a = base) by (unfold base_of; rewrite Ed; reflexivity).
  assert (Ro : forall q, region a q -> own q) by (intros q (j & Hj & Hq); rewrite Ed in Hq; exists (fa_name a), j; auto).
  assert (Nc : forall q, ~ cfg_of a q) by (intros q H; unfold cfg_of in H; congruence).
  assert (Rb : forall q, region a q -> below base q) by (intros q (j & _ & t & ->); rewrite Ed, numbered_snoc, <- app_assoc; eexists; reflexivity).
  assert (Rn : forall q, own q -> region a q \/ ~ region a q).
  { intros q (name & j & _ & Hj & Hq). destruct (string_dec name (fa_name a)) as [->|Hne]; [left; exists j; rewrite Ed; auto|right].
    intros (k & Hk & Hq2). rewrite Ed in Hq2. destruct Hq as [t ->]. destruct Hq2 as [t2 E2]. apply same_length_app in E2; [|rewrite !numbered_length; reflexivity].
    destruct E2 as [E2 _]. apply numbered_inj in E2. intuition congruence. }
  assert (Bo : ~ own base).
  { intros (name & j & _ & _ & t & E). apply (f_equal (@length _)) in E. unfold base in E. rewrite !app_length, numbered_length in E. cbn in E. lia. }
  assert (S : forall s1, beforeN s0 s1 -> sure (rely a) (guar a) (fun r s' => r = fst (run (fit_zpoly orc a) s0) /\ agree (region a) s' (snd (run (fit_zpoly orc a) s0))) (fit_zpoly orc a) s1).
  { intros s1 [B1 B2]. apply sure_fit_from; [exact W|rewrite Ed; exact U|apply Nc| |].
    - intros Hall. destruct Fr as (j & Hj & Hn). exfalso. exact (Hall j Hj Hn).
    - split; [|rewrite Ed; split; [apply B2|unfold usable_base; rewrite Eb; apply B2]]. intros q [Hq|Hq]; [apply B1; left; apply Ro, Hq|exfalso; eapply Nc; eauto]. }
  assert (G0 : guar a s0 (snd (run (fit_zpoly orc a) s0))).
  { eapply sure_run; [apply rely_refl|apply guar_refl|apply guar_trans|apply S]. split; [intros q _; reflexivity|exact U]. }
  set (J := fun x : fs => (forall q, ~ region a q -> own q \/ In q inputs -> x q = s0 q) /\ usable w x).
  eapply sure_weaken; [|apply (sure_keep (rely a) (guar a) relyN guarN J (fun r s' => r = fst (run (fit_zpoly orc a) s0) /\ agree (region a) s' (snd (run (fit_zpoly orc a) s0))))].
  - cbn beta. intros r s' [[-> Ha] [J1 J2]]. split; [reflexivity|]. split; [|exact J2]. destruct G0 as (G1 & _).
    assert (Kq : forall q, ~ region a q -> own q \/ In q inputs -> s' q = snd (run (fit_zpoly orc a) s0) q).
    { intros q Hn Hq. rewrite (J1 q Hn Hq). symmetry. apply G1; [exact Hn|]. rewrite Eb. intros ->. destruct Hq as [Hq|Hq]; [exact (Bo Hq)|]. apply (Hin _ Hq). exists []. rewrite app_nil_r. reflexivity. }
    intros q [Hq|Hq].
    + destruct (Rn q Hq) as [R|R]; [apply Ha, R|apply Kq; auto].
    + apply Kq; [|right; exact Hq]. intros R. apply (Hin q Hq), Rb, R.
  - intros x y (R1 & R2 & R3). split; [|split; [exact R2|rewrite Eb; exact R3]]. intros q [Hq|Hq]; [apply R1; left; apply Ro, Hq|exfalso; eapply Nc; eauto].
  - intros x y (R1 & R2 & R3). rewrite Eb in *. split; [|split; [exact R2|exact R3]]. intros q H1 H2. apply R1; auto.
  - intros x y (R1 & R2 & R3) (J1 & J2 & J3). split; [|split].
    + intros q Hn Hq. rewrite R1 by exact Hq. apply J1; assumption.
    + apply R2, J2.
    + destruct J3 as [J3|J3]; [exact (R3 J3)|right; apply R2, J3].
  - intros x y (R1 & R2 & R3) (J1 & J2 & J3). rewrite Eb in *. split; [|split].
    + intros q Hn Hq. rewrite R1; [apply J1; assumption|exact Hn|]. intros ->. destruct Hq as [Hq|Hq]; [exact (Bo Hq)|]. apply (Hin _ Hq). exists []. rewrite app_nil_r. reflexivity.
    + apply R2, J2.
    + destruct J3 as [J3|J3]; [exact (R3 J3)|right; apply R2, J3].
  - apply S, Hs.
  - destruct Hs as [B1 B2]. split; [|exact B2]. intros q _ Hq. apply B1, Hq.
Qed.

Lemma as_solo_setups orc sc cwd ob sus s0 : (forall q, In q inputs -> ~ below base q) -> sc_work_dir sc = w -> In (ob_name ob) names -> (1 <= sc_order_max sc)%nat ->
  wf s0 -> usable w s0 -> (length sus <= free_numbers w (ob_name ob) s0)%nat ->
  as_solo (each (fun su => a <- lift (fit_call sc cwd ob su) ;; fit_zpoly orc a) sus) s0.
Proof.
  intros Hin Ew En N. revert s0. induction sus as [|su sus IH]; intros s0 W U F; [apply as_solo_ret|]. cbn [each length] in *. apply as_solo_bind.
  - apply as_solo_bind; [apply as_solo_lift|]. intros a s1 H. rewrite run_lift in H. destruct (fit_call sc cwd ob su) as [a'|] eqn:Ea; [|discriminate]. inversion H; subst a' s1.
    apply fit_call_inv in Ea. pose proof Ea as (Enm & _ & _ & _ & _ & _ & _ & _ & _ & _ & _ & _ & _ & _ & _ & Eo & _ & _ & _ & Ec & _ & Ewd).
    assert (Ed : fit_dir a = w) by (unfold fit_dir; rewrite Ewd; exact Ew).
    apply as_solo_fit; try assumption; [rewrite Enm; exact En|]. unfold free_number. rewrite Ed, Enm. apply free_exists. lia.
  - intros [] s1 H1. apply run_lift_inv in H1. destruct H1 as (a & Ea & H1).
    apply fit_call_inv in Ea. pose proof Ea as (Enm & _ & _ & _ & _ & _ & _ & _ & _ & _ & _ & _ & _ & _ & _ & Eo & _ & _ & _ & Ec & Ep & Ewd).
    assert (Ed : fit_dir a = w) by (unfold fit_dir; rewrite Ewd; exact Ew).
    assert (Fa : free_number a s0) by (unfold free_number; rewrite Ed, Enm; apply free_exists; lia).
    destruct (one_fit orc a s0 s1 W H1 Fa Ec Ep ltac:(rewrite Eo; exact N)) as (U1 & j & Hj & Hn & Hr & Hc). rewrite Ed, Enm in *.
    assert (W1 : wf s1) by (replace s1 with (snd (run (fit_zpoly orc a) s0)) by (rewrite H1; reflexivity); apply run_wf, W).
    assert (Fs : (free_numbers w (ob_name ob) s0 <= S (free_numbers w (ob_name ob) s1))%nat).
    { apply (free_step _ _ _ _ j). intros i Hi2. apply Hc. intros E. apply belongs_near in E. destruct E as [E|E].
      - apply (or_introl (B := below (numbered w (ob_name ob) j) (numbered w (ob_name ob) i))) in E. apply numbered_related in E. intuition congruence.
      - apply (or_intror (A := above (numbered w (ob_name ob) i) (numbered w (ob_name ob) j))) in E. apply numbered_related in E. intuition congruence. }
    apply IH; [exact W1| |lia]. eapply usable_later; eauto. exists (ob_name ob), j. apply Hr.
Qed.
Lemma as_solo_batch orc sc cwd files stems s0 : (forall q, In q inputs -> ~ below base q) -> sc_work_dir sc = w -> (1 <= sc_order_max sc)%nat ->
  (forall stem, In stem stems -> In stem names) -> (forall f, In f files -> In (resolve cwd f) inputs) ->
  wf s0 -> usable w s0 -> Forall2 (fun f stem => exists dir, names_fits f dir stem) files stems -> room sc stems s0 ->
  as_solo (batch orc sc cwd files) s0.
Proof.
  intros Hin Ew N. intros Hnames Hfiles W U HN. revert s0 W U Hnames Hfiles. induction HN as [|f stem files stems [dir NF] HN IH]; intros s0 W U Hnames Hfiles R; [apply as_solo_ret|].
  assert (Fr : (length (sc_setups sc) <= free_numbers w stem s0)%nat).
  { specialize (R stem (or_introl eq_refl)). cbn [count_occ] in R. destruct (string_dec stem stem); [|congruence]. rewrite Ew in R. nia. }
  unfold batch. cbn [each]. apply as_solo_bind.
  - unfold compute_phase_error. apply as_solo_bind; [apply as_solo_extract, Hfiles; left; reflexivity|]. intros ob s1 H1.
    assert (s1 = s0) as -> by (rewrite <- (extract_state cwd f s0), H1; reflexivity).
    assert (En : ob_name ob = stem) by (eapply (observed_name cwd s0 f dir stem ob NF); unfold observed; rewrite H1; reflexivity).
    apply as_solo_setups; try assumption; rewrite En; [apply Hnames; left; reflexivity|exact Fr].
  - intros [] s1 H1. pose proof H1 as H1'. rewrite <- Ew in Fr. destruct (batch_step orc sc cwd f dir stem s0 s1 NF W N Fr H1') as (U1 & ob' & dirs1 & Ho' & _ & ND1 & FA1 & Hch1 & Hd1 & Hf1 & Hn1). rewrite Ew in *.
    assert (W1 : wf s1) by (replace s1 with (snd (run (compute_phase_error orc sc cwd f) s0)) by (rewrite H1; reflexivity); apply run_wf, W).
    apply IH.
    + exact W1.
    + destruct dirs1 as [|d dirs1].
      * split; [rewrite Hch1; [apply U|intros d []]|rewrite Hch1; [apply U|intros d []]].
      * inversion FA1 as [|job d0 l m (a & Ha & _ & (j & _ & Ej & _) & Hdir & _)]; subst. destruct Ha as (_ & _ & _ & _ & _ & _ & _ & _ & _ & _ & _ & _ & _ & _ & _ & _ & _ & _ & _ & _ & _ & Ewd).
        assert (Ed : fit_dir a = sc_work_dir sc) by (unfold fit_dir; rewrite Ewd; reflexivity). rewrite Ed, Ew in Hdir. eapply usable_later; eauto.
    + intros st Hst. apply Hnames. right. exact Hst.
    + intros g Hg. apply Hfiles. right. exact Hg.
    + intros st Hst. specialize (R st (or_intror Hst)). cbn [count_occ] in R. rewrite Ew in *. destruct (string_dec stem st) as [->|Hne]; [nia|].
      rewrite (free_same _ st s0 s1); [exact R|]. intros i. apply Hn1. congruence.
Qed.
End Rank.

(** ** All processes *)
Lemma nodup_sections {A} (ls : list (list A)) i j x l m : NoDup (concat ls) -> nth_error ls i = Some l -> nth_error ls j = Some m -> In x l -> In x m -> i = j.
Proof.
  revert i j. induction ls as [|a t IH]; intros i j ND Hi Hj Hl Hm; [destruct i; discriminate|]. cbn [concat] in ND.
  assert (ND2 : NoDup (concat t)) by (clear - ND; induction a; [exact ND|inversion ND; auto]).
  assert (Sep : forall y, In y a -> ~ In y (concat t)).
  { clear - ND. induction a as [|b a IHa]; intros y Hy; [destruct Hy|]. cbn in ND. inversion ND as [|? ? H1 H2]; subst. destruct Hy as [<-|Hy].
    - intros K. apply H1, in_or_app. right. exact K.
    - apply IHa; assumption. }
  assert (Inc : forall k n, nth_error t k = Some n -> forall y, In y n -> In y (concat t)).
  { intros k n Hk y Hy. apply in_concat. exists n. split; [eapply nth_error_In; eauto|exact Hy]. }
  destruct i as [|i], j as [|j]; cbn in Hi, Hj.
  - reflexivity.
  - exfalso. inversion Hi; subst a. apply (Sep x Hl). eapply Inc; eauto.
  - exfalso. inversion Hj; subst a. apply (Sep x Hm). eapply Inc; eauto.
  - f_equal. eapply IH; eauto.
Qed.
Lemma count_section (ls : list (list string)) l x : In l ls -> (count_occ string_dec l x <= count_occ string_dec (concat ls) x)%nat.
Proof.
  induction ls as [|a t IH]; intros H; [destruct H|]. cbn [concat]. rewrite count_occ_app. destruct H as [->|H]; [lia|]. specialize (IH H). lia.
Qed.
Lemma room_section sc ls l s : room sc (concat ls) s -> In l ls -> room sc l s.
Proof.
  intros R H stem Hs. assert (Hc : In stem (concat ls)) by (apply in_concat; eauto). specialize (R stem Hc). pose proof (count_section ls l stem H). nia.
Qed.
Lemma nth_error_Forall2 {A B} (P : A -> B -> Prop) l m i x : Forall2 P l m -> nth_error l i = Some x -> exists y, nth_error m i = Some y /\ P x y.
Proof. intros H. revert i. induction H as [|a b l m Hab H IH]; intros [|i] E; cbn in *; try discriminate; [inversion E; subst; eauto|eauto]. Qed.


Lemma own_disjoint w n1 n2 q : (forall x, In x n1 -> In x n2 -> False) -> own w n1 q -> own w n2 q -> False.
Proof.
  intros D (a & j & Ha & _ & t & ->) (b & k & Hb & _ & u & E). apply same_length_app in E; [|rewrite !numbered_length; reflexivity]. destruct E as [E _].
  apply numbered_inj in E. destruct E as [<- _]. eapply D; eauto.
Qed.
Lemma base_own w n : ~ own w n (w ++ ["pyoof_out"]).
Proof. intros (name & j & _ & _ & t & E). apply (f_equal (@length _)) in E. rewrite !app_length, numbered_length in E. cbn in E. lia. Qed.
Lemma own_below w n q : own w n q -> below (w ++ ["pyoof_out"]) q.
Proof. intros (name & j & _ & _ & t & ->). rewrite numbered_snoc, <- app_assoc. eexists. reflexivity. Qed.

Section All.
Variables (orc : oracle) (sc : script) (cwd : path) (files stems : list string) (size : nat) (s : fs).
Let w := sc_work_dir sc.
Hypothesis Hsize : (0 < size)%nat.
Hypothesis HW : wf s.
Hypothesis HU : usable w s.
Hypothesis HO : (1 <= sc_order_max sc)%nat.
Hypothesis HI : input_files cwd s files stems.
Hypothesis Hout : forall f, In f files -> ~ below (w ++ ["pyoof_out"]) (resolve cwd f).
Hypothesis HR : room sc stems s.
Hypothesis HD : NoDup stems.

Let inputs := map (resolve cwd) files.
Let names (i : nat) := nth i (array_split stems size) [].
Let section_ (i : nat) := nth i (array_split files size) [].

Lemma inputs_clear q : In q inputs -> ~ below (w ++ ["pyoof_out"]) q.
Proof. intros H. apply in_map_iff in H. destruct H as (f & <- & Hf). apply Hout, Hf. Qed.
Lemma names_apart i j x : i <> j -> In x (names i) -> In x (names j) -> False.
Proof.
  intros Hne Hi Hj. unfold names in *.
  destruct (nth_error (array_split stems size) i) as [l|] eqn:Ei; [|rewrite nth_overflow in Hi; [destruct Hi|apply nth_error_None; exact Ei]].
  destruct (nth_error (array_split stems size) j) as [m|] eqn:Ej; [|rewrite nth_overflow in Hj; [destruct Hj|apply nth_error_None; exact Ej]].
  rewrite (nth_error_nth _ _ _ Ei) in Hi. rewrite (nth_error_nth _ _ _ Ej) in Hj. apply Hne. eapply nodup_sections; eauto. rewrite split_concat; assumption.
Qed.
Lemma ranks_nth i p : nth_error (mpi_ranks orc sc cwd files size) i = Some p -> (i < size)%nat /\ nth_error (array_split files size) i = Some (section_ i) /\ p = batch orc sc cwd (section_ i).
Proof.
  intros H. unfold mpi_ranks in H. assert (L : (i < size)%nat).
  { assert (X : nth_error (map (batch orc sc cwd) (array_split files size)) i <> None) by congruence. apply nth_error_Some in X. rewrite map_length, split_length in X by exact Hsize. exact X. }
  split; [exact L|]. destruct (nth_error (array_split files size) i) as [l|] eqn:E.
  - assert (Es : section_ i = l) by (apply nth_error_nth, E). rewrite Es. split; [reflexivity|]. rewrite (map_nth_error _ _ _ E) in H. congruence.
  - apply nth_error_None in E. rewrite split_length in E by exact Hsize. lia.
Qed.
Lemma section_facts i : (i < size)%nat ->
  Forall2 (fun f stem => exists dir, names_fits f dir stem) (section_ i) (names i) /\ room sc (names i) s /\ (forall f, In f (section_ i) -> In f files).
Proof.
  intros Hi. destruct HI as [HN HE].
  pose proof (split_forall2 _ _ _ size HN) as F.
  destruct (nth_error (array_split files size) i) as [l|] eqn:E; [|apply nth_error_None in E; rewrite split_length in E by exact Hsize; lia].
  destruct (nth_error_Forall2 _ _ _ _ _ F E) as (m & Em & Fm). unfold section_, names. rewrite (nth_error_nth _ _ _ E), (nth_error_nth _ _ _ Em).
  split; [exact Fm|]. split.
  - apply (room_section sc (array_split stems size)); [rewrite split_concat by exact Hsize; exact HR|eapply nth_error_In; eauto].
  - intros f Hf. rewrite <- (split_concat files size Hsize). apply in_concat. exists l. split; [eapply nth_error_In; eauto|exact Hf].
Qed.
Lemma rank_sure i p : nth_error (mpi_ranks orc sc cwd files size) i = Some p ->
  sure (relyN w (names i) inputs) (guarN w (names i)) (fun r s' => r = fst (run (batch orc sc cwd (section_ i)) s) /\ beforeN w (names i) inputs (snd (run (batch orc sc cwd (section_ i)) s)) s') p s.
Proof.
  intros H. destruct (ranks_nth i p H) as (Hi & _ & ->). destruct (section_facts i Hi) as (F & R & Inc).
  apply (as_solo_batch w (names i) inputs orc sc cwd (section_ i) (names i)); try assumption; try reflexivity.
  - exact inputs_clear.
  - auto.
  - intros f Hf. apply in_map, Inc, Hf.
  - split; [intros q _; reflexivity|exact HU].
Qed.
Lemma guar_to_rely i j a b : i <> j -> guarN w (names i) a b -> relyN w (names j) inputs a b.
Proof.
  intros Hne (G1 & G2 & G3). split; [|split; assumption]. intros q [Hq|Hq].
  - apply G1; [intros K; eapply own_disjoint; [|exact K|exact Hq]; intros x; apply names_apart, Hne|]. intros ->. exact (base_own _ _ Hq).
  - pose proof (inputs_clear q Hq) as N. apply G1; [intros K; apply N; eapply own_below; eauto|]. intros ->. apply N. exists []. rewrite app_nil_r. reflexivity.
Qed.

Lemma mpi_solo sched ps s' : interleave_all sched (mpi_ranks orc sc cwd files size) s = (ps, s') ->
  length ps = size /\
  (forall q, (forall name, In name stems -> ~ name_region w name q) -> q <> w ++ ["pyoof_out"] -> s' q = s q) /\
  (s' (w ++ ["pyoof_out"]) = s (w ++ ["pyoof_out"]) \/ s (w ++ ["pyoof_out"]) = None /\ s' (w ++ ["pyoof_out"]) = Some Dir) /\
  forall i p r, nth_error ps i = Some p -> finished p = Some r ->
    r = fst (run (batch orc sc cwd (section_ i)) s) /\
    forall name q, In name (names i) -> name_region w name q -> s' q = snd (run (batch orc sc cwd (section_ i)) s) q.
Proof.
  intros H. pose proof (fun i a => relyN_refl w (names i) inputs a) as RR.
  assert (Main : forall I : fs -> Prop, (forall i a b, guarN w (names i) a b -> I a -> I b) -> I s ->
    length ps = length (mpi_ranks orc sc cwd files size) /\ I s' /\
    forall i p, nth_error ps i = Some p -> sure (relyN w (names i) inputs) (guarN w (names i)) (fun r x => r = fst (run (batch orc sc cwd (section_ i)) s) /\ beforeN w (names i) inputs (snd (run (batch orc sc cwd (section_ i)) s)) x) p s').
  { intros I KI Is. apply (sure_interleave_all (fun i => relyN w (names i) inputs) (fun i => guarN w (names i))
      (fun i r x => r = fst (run (batch orc sc cwd (section_ i)) s) /\ beforeN w (names i) inputs (snd (run (batch orc sc cwd (section_ i)) s)) x) I sched) with (ps := mpi_ranks orc sc cwd files size) (s := s).
    - intros i j a b Hne. apply guar_to_rely, Hne.
    - exact RR.
    - intros i. apply relyN_trans.
    - exact KI.
    - exact rank_sure.
    - exact Is.
    - exact H. }
  destruct (Main (fun _ => True) ltac:(auto) Logic.I) as (L & _ & K). split; [|split; [|split]].
  - rewrite L. unfold mpi_ranks. rewrite map_length. apply split_length, Hsize.
  - intros q Hq Hb. apply (Main (fun x => x q = s q)); [|reflexivity]. intros i a b (G1 & _) E. rewrite G1; [exact E| |exact Hb].
    intros (name & j & Hin & Hj & Hbq). apply (Hq name); [|exists j; auto]. unfold names in Hin.
    rewrite <- (split_concat stems size Hsize). apply in_concat. destruct (Nat.lt_ge_cases i (length (array_split stems size))) as [Hl|Hl]; [exists (nth i (array_split stems size) []); split; [apply nth_In, Hl|exact Hin]|rewrite nth_overflow in Hin by exact Hl; destruct Hin].
  - apply (Main (fun x => x (w ++ ["pyoof_out"]) = s (w ++ ["pyoof_out"]) \/ s (w ++ ["pyoof_out"]) = None /\ x (w ++ ["pyoof_out"]) = Some Dir)); [|left; reflexivity].
    intros i a b (_ & G2 & G3) Ha. unfold base_rule in G3. destruct Ha as [Ha|[Ha Hb]].
    + destruct HU as [_ [U|U]]; fold w in U.
      * rewrite U in *. destruct (G3 Ha) as [X|X]; auto.
      * rewrite U in *. left. apply G2, Ha.
    + right. split; [exact Ha|apply G2, Hb].
  - intros i p r Hp Hf. specialize (K i p Hp).
    assert (X : r = fst (run (batch orc sc cwd (section_ i)) s) /\ beforeN w (names i) inputs (snd (run (batch orc sc cwd (section_ i)) s)) s').
    { destruct p; cbn in Hf; inversion Hf; subst; apply K, RR. }
    destruct X as [X1 [X2 _]]. split; [exact X1|]. intros name q Hn (j & Hj & Hq). apply X2. left. exists name, j. auto.
Qed.
End All.

(** ** Together *)
Lemma order_results_agree orc a s1 s2 d n : (forall q, below d q -> s2 q = s1 q) -> order_results orc a s1 d n -> order_results orc a s2 d n.
Proof.
  intros U (rows & out & r & xy & ph & cov & cor & idx & H1 & H2 & [Ha Hb] & H3 & Hc & H4 & H5 & H6 & H7 & H8 & H9 & H10 & H11 & H12 & H13 & H14 & H15).
  assert (X : forall t, s2 (d ++ t) = s1 (d ++ t)) by (intros t; apply U; exists t; reflexivity).
  exists rows, out, r, xy, ph, cov, cor, idx. unfold fitpar_rows, csv_file in *. rewrite !X. split; [exact H1|]. split; [exact H2|].
  split. { split; [exact Ha|]. intros P Q. destruct (Hb P Q) as (rows' & R1 & R2). exists rows'. unfold fitpar_rows in *. rewrite X. split; assumption. }
  repeat match goal with |- _ /\ _ => split end; assumption.
Qed.
Lemma results_agree orc a s1 s2 d : (forall i, (i <= 100)%nat -> s2 (numbered (fit_dir a) (fa_name a) i) = s1 (numbered (fit_dir a) (fa_name a) i)) ->
  (forall q, below d q -> s2 q = s1 q) -> results_in orc a s1 d -> results_in orc a s2 d.
Proof.
  intros V U (H1 & H2 & H3 & H4 & H5 & H6 & (i & snrs & H7 & H8 & H9) & H10).
  assert (X : forall t, s2 (d ++ t) = s1 (d ++ t)) by (intros t; apply U; exists t; reflexivity).
  unfold results_in, csv_file in *. rewrite !X. repeat match goal with |- _ /\ _ => split end; try assumption.
  - destruct H1 as (j & A & B & C). exists j. split; [exact A|]. split; [exact B|]. intros k Hk. rewrite V by lia. apply C, Hk.
  - rewrite <- (app_nil_r d), X, app_nil_r. exact H2.
  - intros f Hf. rewrite X. apply H3, Hf.
  - exists i, snrs. split; [exact H7|]. split; assumption.
  - intros n Hn. eapply order_results_agree; eauto.
Qed.
Lemma list_prod_app {A B} (l m : list A) (k : list B) : list_prod (l ++ m) k = list_prod l k ++ list_prod m k.
Proof. induction l as [|x t IH]; [reflexivity|]. cbn [list_prod app]. rewrite IH, app_assoc. reflexivity. Qed.
Lemma own_dec w names q : {own w names q} + {~ own w names q}.
Proof.
  destruct (Exists_dec (fun nj : string * nat => above (numbered w (fst nj) (snd nj)) q) (list_prod names (seq 0 101)) (fun nj => above_dec _ q)) as [H|H].
  - left. apply Exists_exists in H. destruct H as ([name j] & Hin & Ha). apply in_prod_iff in Hin. destruct Hin as [Hn Hj]. apply in_seq in Hj. exists name, j. repeat split; [exact Hn|lia|exact Ha].
  - right. intros (name & j & Hn & Hj & Hb). apply H, Exists_exists. exists (name, j). split; [apply in_prod_iff; split; [exact Hn|apply in_seq; lia]|exact Hb].
Qed.
Lemma own_app w l m q : own w (l ++ m) q <-> own w l q \/ own w m q.
Proof.
  split.
  - intros (name & j & Hn & H). apply in_app_or in Hn. destruct Hn as [Hn|Hn]; [left|right]; exists name, j; auto.
  - intros [(name & j & Hn & H)|(name & j & Hn & H)]; exists name, j; (split; [apply in_or_app; auto|exact H]).
Qed.

Definition part_stored orc sc cwd (s s' : fs) (files stems : list string) : Prop := exists obs dirs,
  Forall2 (observed cwd s) files obs /\ NoDup dirs /\ Forall2 (job_stored orc sc s s') (list_prod obs (sc_setups sc)) dirs /\
  (forall q, own (sc_work_dir sc) stems q -> (forall d, In d dirs -> ~ belongs (sc_order_max sc) d q) -> s' q = s q) /\
  (forall q, own (sc_work_dir sc) stems q -> s q <> None -> s' q = s q) /\
  (forall d, In d dirs -> own (sc_work_dir sc) stems d).
Lemma gather orc sc cwd s s' fl sl : Forall2 (part_stored orc sc cwd s s') fl sl -> NoDup (concat sl) -> part_stored orc sc cwd s s' (concat fl) (concat sl).
Proof.
  intros H. induction H as [|f m fl sl (obs & dirs & H1 & H2 & H3 & H4 & H5 & H6) H IH]; intros ND.
  - exists [], []. cbn. split; [constructor|]. split; [constructor|]. split; [constructor|]. split; [intros q (n & j & [] & _)|]. split; [intros q (n & j & [] & _)|intros d []].
  - cbn [concat] in *. assert (ND2 : NoDup (concat sl)) by (clear - ND; induction m; [exact ND|inversion ND; auto]).
    destruct (IH ND2) as (obs2 & dirs2 & G1 & G2 & G3 & G4 & G5 & G6).
    assert (Dis : forall x, In x m -> In x (concat sl) -> False).
    { clear - ND. induction m as [|b a IHa]; intros y Hy; [destruct Hy|]. cbn in ND. inversion ND as [|? ? H1 H2]; subst. destruct Hy as [<-|Hy].
      - intros K. apply H1, in_or_app. right. exact K.
      - apply IHa; assumption. }
    exists (obs ++ obs2), (dirs ++ dirs2). split; [apply Forall2_app; assumption|]. split; [|split; [|split; [|split]]].
    + apply NoDup_app_intro; [exact H2|exact G2|]. intros d A B. eapply own_disjoint; [exact Dis|apply H6, A|apply G6, B].
    + rewrite list_prod_app. apply Forall2_app; assumption.
    + intros q Hq Hr. apply own_app in Hq. destruct Hq as [Hq|Hq]; [apply H4|apply G4]; try exact Hq; intros d Hd; apply Hr, in_or_app; auto.
    + intros q Hq Hr. apply own_app in Hq. destruct Hq as [Hq|Hq]; [apply H5|apply G5]; assumption.
    + intros d Hd. apply own_app. apply in_app_or in Hd. destruct Hd; [left; apply H6|right; apply G6]; assumption.
Qed.
Lemma job_dir orc sc cwd files stems obs dirs s s' : Forall2 (fun f stem => exists dir, names_fits f dir stem) files stems -> Forall2 (observed cwd s) files obs ->
  Forall2 (job_stored orc sc s s') (list_prod obs (sc_setups sc)) dirs -> forall d, In d dirs -> own (sc_work_dir sc) stems d.
Proof.
  intros HN Hob HJ d Hd. assert (X : exists job, In job (list_prod obs (sc_setups sc)) /\ job_stored orc sc s s' job d).
  { clear - HJ Hd. induction HJ as [|j d0 l m H HJ IH]; [destruct Hd|]. destruct Hd as [<-|Hd]; [exists j; split; [left; reflexivity|exact H]|]. destruct (IH Hd) as (j' & A & B). exists j'. split; [right; exact A|exact B]. }
  destruct X as ([ob su] & Hin & a & Ha & _ & (j & Hj & -> & _) & _). apply in_prod_iff in Hin. destruct Hin as [Hin _].
  destruct Ha as (En & _ & _ & _ & _ & _ & _ & _ & _ & _ & _ & _ & _ & _ & _ & _ & _ & _ & _ & _ & _ & Ew). cbn [fst] in En.
  assert (Ed : fit_dir a = sc_work_dir sc) by (unfold fit_dir; rewrite Ew; reflexivity).
  exists (ob_name ob), j. split; [|split; [exact Hj|rewrite Ed, En; exists []; rewrite app_nil_r; reflexivity]].
  clear HJ. revert obs Hob Hin. clear - HN. induction HN as [|f stem files stems [dir NF] HN IH]; intros obs Hob Hin; inversion Hob as [|? o ? os Ho Hos]; subst; [destruct Hin|].
  destruct Hin as [->|Hin]; [left; symmetry; eapply observed_name; eauto|right; eapply IH; eauto].
Qed.

Lemma mpi_all orc sc cwd files stems size s sched ps s' :
  (0 < size)%nat -> wf s -> usable (sc_work_dir sc) s -> (1 <= sc_order_max sc)%nat -> sc_setups sc <> [] -> files <> [] -> input_files cwd s files stems ->
  (forall f, In f files -> ~ below (sc_work_dir sc ++ ["pyoof_out"]) (resolve cwd f)) -> room sc stems s -> NoDup stems ->
  interleave_all sched (mpi_ranks orc sc cwd files size) s = (ps, s') -> (forall p, In p ps -> finished p = Some (Ok tt)) ->
  all_stored orc sc cwd files s s'.
Proof.
  intros Hs W U HO Hset Hfil HI Hout HR ND H Hall.
  destruct (mpi_solo orc sc cwd files stems size s Hs W U HO HI Hout HR ND sched ps s' H) as (L & Hoth & Hbase & Hsolo).
  set (w := sc_work_dir sc) in *.
  assert (P : Forall2 (part_stored orc sc cwd s s') (array_split files size) (array_split stems size)).
  { assert (Fx : forall i, (i < size)%nat -> part_stored orc sc cwd s s' (nth i (array_split files size) []) (nth i (array_split stems size) [])).
    { intros i Hi. destruct (nth_error ps i) as [p|] eqn:Ep; [|apply nth_error_None in Ep; lia].
      destruct (Hsolo i p (Ok tt) Ep (Hall p (nth_error_In _ _ Ep))) as [R1 R2].
      destruct (section_facts sc cwd files stems size s Hs HO HI HR i Hi) as (F & R & Inc).
      set (fi := nth i (array_split files size) []) in *. set (si := nth i (array_split stems size) []) in *.
      assert (Er : run (batch orc sc cwd fi) s = (Ok tt, snd (run (batch orc sc cwd fi) s))) by (rewrite R1; apply surjective_pairing).
      assert (HIi : input_files cwd s fi si) by (split; [exact F|intros f Hf; apply HI, Inc, Hf]).
      destruct (batch_stored orc sc cwd fi si s _ W HO HIi R Er) as (U1 & obs & dirs & A1 & A2 & A3 & A4 & A5).
      set (t := snd (run (batch orc sc cwd fi) s)) in *.
      assert (Hag : forall q, own w si q -> s' q = t q) by (intros q (name & j & Hn & Hj & Hb); apply (R2 name q Hn); exists j; auto).
      pose proof (job_dir orc sc cwd fi si obs dirs s t F A1 A3) as Hd.
      exists obs, dirs. split; [exact A1|]. split; [exact A2|]. split; [|split; [|split]].
      - assert (X : forall d, In d dirs -> forall q, below d q -> s' q = t q).
        { intros d Hin q [u ->]. destruct (Hd d Hin) as (name & j & Hn & Hj & [v ->]). apply Hag. exists name, j. split; [exact Hn|]. split; [exact Hj|]. rewrite <- app_assoc. eexists. reflexivity. }
        assert (V : forall a d i, In d dirs -> (exists j, d = numbered (fit_dir a) (fa_name a) j) -> fit_dir a = w -> (i <= 100)%nat ->
          s' (numbered (fit_dir a) (fa_name a) i) = t (numbered (fit_dir a) (fa_name a) i)).
        { intros a d i0 Hin (j0 & Ed) Ew Hi0. destruct (Hd d Hin) as (name & j & Hn & Hj & [v Ev]). apply Hag. exists name, i0. split; [exact Hn|]. split; [exact Hi0|]. exists []. rewrite app_nil_r.
          rewrite Ed, Ew in Ev. assert (Eq : numbered w (fa_name a) j0 = numbered w name j).
          { fold w in Ev. pose proof (f_equal (@length _) Ev) as El. rewrite app_length, !numbered_length in El. destruct v; [rewrite app_nil_r in Ev; exact Ev|cbn [length] in El; lia]. }
          apply numbered_inj in Eq. destruct Eq as [-> _]. rewrite Ew. reflexivity. }
        clear - A3 X V. induction A3 as [|job d l m (a & B1 & B2 & B3) A3 IH]; constructor.
        + exists a. split; [exact B1|]. split; [exact B2|]. eapply results_agree; [|apply X; left; reflexivity|exact B3].
          intros i0 Hi0. apply (V a d); [left; reflexivity| | |exact Hi0].
          * destruct B3 as ((j & _ & E & _) & _). exists j. exact E.
          * destruct B1 as (_ & _ & _ & _ & _ & _ & _ & _ & _ & _ & _ & _ & _ & _ & _ & _ & _ & _ & _ & _ & _ & Ew). unfold fit_dir. rewrite Ew. reflexivity.
        + apply IH; [intros d' Hd'; apply X; right; exact Hd'|]. intros a' d' i0 Hd'. apply V. right. exact Hd'.
      - intros q Hq Hr. rewrite (Hag q Hq). apply A4, Hr.
      - intros q Hq Hr. rewrite (Hag q Hq). apply U1, Hr.
      - exact Hd. }
    assert (Gen : forall (fl sl : list (list string)), length fl = length sl -> (forall i, (i < length fl)%nat -> part_stored orc sc cwd s s' (nth i fl []) (nth i sl [])) -> Forall2 (part_stored orc sc cwd s s') fl sl).
    { induction fl as [|x fl IH]; intros [|y sl] El Hx; cbn in El; try discriminate; constructor; [apply (Hx 0%nat); cbn; lia|]. apply IH; [lia|]. intros i Hi. apply (Hx (S i)). cbn. lia. }
    apply Gen; rewrite !split_length by exact Hs; auto. }
  pose proof (gather _ _ _ _ _ _ _ P) as G. rewrite !split_concat in G by exact Hs. destruct (G ND) as (obs & dirs & G1 & G2 & G3 & G4 & G5 & G6). fold w in G4, G5, G6.
  assert (Out : forall q, ~ own w stems q -> q <> w ++ ["pyoof_out"] -> s' q = s q).
  { intros q Hq Hb. apply Hoth; [|exact Hb]. intros name Hn (j & Hj & Hx). apply Hq. exists name, j. auto. }
  split.
  - intros q Hq. destruct (own_dec w stems q) as [O|O]; [apply G5; assumption|]. destruct (path_eq_dec q (w ++ ["pyoof_out"])) as [->|Nb]; [|apply Out; assumption].
    destruct Hbase as [E|[E _]]; [exact E|contradiction].
  - exists obs, dirs. split; [exact G1|]. split; [exact G2|]. split; [exact G3|]. intros q Hq.
    destruct (own_dec w stems q) as [O|O]; [apply G4; assumption|]. apply Out; [exact O|]. intros ->.
    destruct files as [|f files']; [congruence|]. inversion G1 as [|? ob ? obs' _ _]; subst. destruct (sc_setups sc) as [|su sus]; [congruence|].
    cbn [list_prod map app] in G3. inversion G3 as [|? d ? ds _ _]; subst. apply (Hq d (or_introl eq_refl)). left.
    destruct (own_below _ _ _ (G6 d (or_introl eq_refl))) as [t E]. exists t. exact E.
Qed.

(** ** As it stands *)
Lemma mpi_as_written orc w cwd f files s ob : observed cwd s f ob -> run (batch orc (mpi_script w) cwd (f :: files)) s = (Err AttributeError, s).
Proof.
  intros Ho. assert (Hx : run (extract_data_effelsberg cwd f) s = (Ok ob, s)) by (rewrite (surjective_pairing (run _ _)), extract_state; rewrite Ho; reflexivity).
  unfold batch. cbn [each]. unfold compute_phase_error. rewrite run_bind, run_bind, Hx. reflexivity.
Qed.
