(** Directory choice, footprint, crash points, and the final state of a run. *)
From Coq Require Import String Ascii List FunctionalExtensionality.
From Verif Require Import PyBase Num MZernike MMath MAperture MRad MCore MFs MOut PFs PStr PFit SOut SFit PFit2.
Import ListNotations.
Open Scope R_scope.
Open Scope string_scope.
Open Scope list_scope.
Open Scope prog_scope.

Lemma run_dir_numbered w name j : run_dir (w ++ ["pyoof_out"]) name j = numbered w name j.
Proof. unfold run_dir, numbered. rewrite <- app_assoc. reflexivity. Qed.
Lemma numbered_inj w n1 n2 j k : numbered w n1 j = numbered w n2 k -> n1 = n2 /\ j = k.
Proof. rewrite <- !run_dir_numbered. apply run_dir_inj. Qed.
Lemma numbered_length w name j : length (numbered w name j) = (length w + 2)%nat.
Proof. unfold numbered. rewrite app_length. reflexivity. Qed.
Lemma base_not_numbered w name j q : is_prefix q (w ++ ["pyoof_out"]) -> q <> numbered w name j.
Proof.
  intros H -> . apply is_prefix_length in H. rewrite numbered_length, app_length in H. simpl in H. lia.
Qed.

(** ** Footprints *)
Lemma choose_only base name js last :
  only (fun q => exists j, In j js /\ is_prefix q (run_dir base name j)) (fun _ => False) (choose_dir base name js last).
Proof.
  revert last. induction js as [|j t IH]; intros last; [destruct last; exact I|].
  cbn [choose_dir]. apply only_bind; [cbn; auto|]. intros [].
  - eapply only_impl; [| |apply IH]; [|auto]. intros q (i & Hi & H). exists i. split; [right; exact Hi|exact H].
  - apply only_bind; [|intros []; exact I].
    eapply only_impl; [| |apply makedirs_only]; [|auto]. intros q H. exists j. split; [left; reflexivity|exact H].
Qed.
Definition dir_region (w : path) (name : string) (q : path) : Prop :=
  exists j, (j <= 100)%nat /\ is_prefix q (numbered w name j).
Lemma pick_only w name : only (dir_region w name) (fun _ => False) (pick_dir w name).
Proof.
  unfold pick_dir. cbv zeta. apply only_bind; [cbn; auto|]. intros b. apply only_bind.
  - destruct b; [exact I|]. eapply only_impl; [| |apply makedirs_only]; [|auto].
    intros q H. exists O. split; [lia|]. eapply is_prefix_trans; [exact H|].
    unfold numbered. exists [name ^^ "-" ^^ pad3 0]. rewrite <- app_assoc. reflexivity.
  - intros []. eapply only_impl; [| |apply choose_only]; [|auto].
    intros q (j & Hj & H). apply in_seq in Hj. exists j. rewrite run_dir_numbered in H. split; [lia|exact H].
Qed.
Lemma load_only M W f : only M W (load_config f).
Proof. destruct f; cbn; auto. repeat split. intros [d|e]; [destruct d|]; exact I. Qed.

Definition strictly_below (d q : path) : Prop := exists c t, q = d ++ c :: t.
Definition plot_dirs (d q : path) : Prop := is_prefix q (d ++ ["plots"]).
Lemma save_all_only M name d l : only M (strictly_below d) (save_all name d l).
Proof.
  induction l as [|[[f h] x] t IH]; [exact I|]. cbn [save_all]. apply only_bind; [|intros _; exact IH].
  apply write_file_only. exists f, []. reflexivity.
Qed.
Lemma fit_order_only orc a c snrs d n : only (plot_dirs d) (strictly_below d) (fit_order orc a c snrs d n).
Proof.
  unfold fit_order. cbv zeta. apply only_bind.
  { unfold start_params. destruct (_ && _); [|exact I]. apply only_bind; [|intros; exact I].
    unfold read_parfit. cbn. repeat split. intros [[]|]; exact I. }
  intros init. do 10 (apply only_bind; [apply only_lift|intros ?]).
  apply only_bind; [apply only_lift|intros ph]. apply only_bind.
  { unfold store_data_ascii. apply only_bind; [apply only_lift|]. intros tab. apply write_file_only.
    exists (fitpar_name n), []. reflexivity. }
  intros _. apply only_bind.
  { destruct (Nat.eqb n 1); [|exact I]. apply write_file_only. eexists _, []. reflexivity. }
  intros _. apply only_bind; [apply save_all_only|]. intros _. destruct (fa_make_plots a); [|exact I].
  unfold plot_fit_path. cbv zeta. apply only_bind; [cbn; auto|]. intros b. apply only_bind.
  { destruct b; [exact I|]. eapply only_impl; [| |apply makedirs_only]; [|tauto]. intros q H; exact H. }
  intros _. apply only_bind.
  { match goal with |- only _ _ (read_all _ ?l) => generalize l end. intros l. induction l as [|f t IH]; [exact I|].
    cbn [read_all]. apply only_bind; [|intros; exact IH]. cbn. repeat split. intros []; exact I. }
  intros _. apply only_bind; [apply only_lift|]. intros _. generalize (pdf_names n). intros l.
  induction l as [|f t IH]; [exact I|]. cbn [write_pdfs]. apply only_bind; [|intros; exact IH].
  apply write_file_only. exists "plots", [f]. rewrite <- app_assoc. reflexivity.
Qed.
Lemma fit_orders_only orc a c snrs d l : only (plot_dirs d) (strictly_below d) (fit_orders orc a c snrs d l).
Proof. induction l as [|n t IH]; [exact I|]. cbn [fit_orders]. apply only_bind; [apply fit_order_only|intros; exact IH]. Qed.

(** ** Directory choice *)
Lemma choose_post base name js last s d s' :
  run (choose_dir base name js last) s = (Ok d, s') ->
  (exists pre j post, js = pre ++ j :: post /\ d = run_dir base name j /\ (forall i, In i pre -> s (run_dir base name i) <> None)
     /\ s d = None /\ run (makedirs d true) s = (Ok tt, s'))
  \/ ((forall i, In i js -> s (run_dir base name i) <> None) /\ s' = s /\
      ((js = [] /\ last = Some d) \/ exists pre j, js = pre ++ [j] /\ d = run_dir base name j)).
Proof.
  revert last. induction js as [|j t IH]; intros last H.
  - right. destruct last; simpl in H; inversion H; subst. split; [intros i []|]. auto.
  - cbn [choose_dir] in H. cbv zeta in H. rewrite run_bind, run_call in H. cbn [exec fst snd] in H.
    destruct (s (run_dir base name j)) as [nd|] eqn:E.
    + apply IH in H. destruct H as [(pre & k & post & -> & -> & H1 & H2 & H3)|(H1 & -> & H2)].
      * left. exists (j :: pre), k, post. repeat match goal with |- _ /\ _ => split end; auto. intros i [->|Hi]; [congruence|auto].
      * right. split; [|split; [reflexivity|]].
        -- intros i [->|Hi]; [congruence|auto].
        -- right. destruct H2 as [(-> & El)|(pre & k & -> & ->)].
           ++ inversion El. exists [], j. auto.
           ++ exists (j :: pre), k. auto.
    + left. apply run_bind_inv in H. destruct H as ([] & s1 & H1 & H2). simpl in H2. inversion H2; subst.
      exists [], j, t. split; [reflexivity|]. split; [reflexivity|]. split; [intros i []|]. auto.
Qed.

Lemma above_dirs s d : wf s -> s d = Some Dir -> forall q, above q d -> s q = Some Dir.
Proof.
  intros W Hd q [t ->]. revert Hd. induction t as [|c t IH] using rev_ind; intros Hd; [rewrite app_nil_r in Hd; exact Hd|].
  apply IH. destruct W as [_ W]. apply (W _ c). rewrite <- app_assoc, Hd. discriminate.
Qed.

Lemma seq_split_lt n pre j post : seq 0 n = pre ++ j :: post -> (j < n)%nat /\ forall i, (i < j)%nat -> In i pre.
Proof.
  intros H. assert (L : nth (length pre) (seq 0 n) n = j).
  { rewrite H, app_nth2 by lia. rewrite Nat.sub_diag. reflexivity. }
  assert (Hl : (length pre < n)%nat).
  { apply (f_equal (@length _)) in H. rewrite seq_length, app_length in H. simpl in H. lia. }
  rewrite seq_nth in L by exact Hl. simpl in L. subst j. split; [exact Hl|].
  intros i Hi. assert (E : nth i (seq 0 n) n = i) by (rewrite seq_nth by lia; reflexivity).
  rewrite H, app_nth1 in E by exact Hi. rewrite <- E. apply nth_In, Hi.
Qed.

Lemma pick_post w name s d s' : wf s -> run (pick_dir w name) s = (Ok d, s') ->
  (exists j, (j <= 100)%nat /\ d = numbered w name j /\ s d = None /\
     (forall i, (i < j)%nat -> s (numbered w name i) <> None) /\
     (forall q, above q d -> s' q = Some Dir) /\ (forall q, ~ above q d -> s' q = s q))
  \/ ((forall j, (j <= 100)%nat -> s (numbered w name j) <> None) /\ d = numbered w name 100 /\ s' = s).
Proof.
  intros W H. pose proof (run_wf (pick_dir w name) s W) as W'. rewrite H in W'. cbn [snd] in W'.
  unfold pick_dir in H. cbv zeta in H. rewrite run_bind, run_call in H. cbn [exec fst snd] in H.
  apply run_bind_inv in H. destruct H as ([] & s1 & H1 & H2).
  assert (K1 : forall q, ~ is_prefix q (w ++ ["pyoof_out"]) \/ s q <> None -> s1 q = s q).
  { intros q Hq. destruct (s (w ++ ["pyoof_out"])) eqn:Eb.
    - simpl in H1. inversion H1. reflexivity.
    - replace s1 with (snd (run (makedirs (w ++ ["pyoof_out"]) true) s)) by (rewrite H1; reflexivity).
      apply (only_run _ _ _ _ (makedirs_only (w ++ ["pyoof_out"]) true)); tauto. }
  assert (Kn : forall j, s1 (numbered w name j) = s (numbered w name j)).
  { intros j. apply K1. left. intros Hp. exact (base_not_numbered w name j _ Hp eq_refl). }
  apply choose_post in H2. destruct H2 as [(pre & j & post & Hseq & Ed & Hpre & Hn & Hmk)|(Hall & -> & Hl)].
  - left. apply seq_split_lt in Hseq. destruct Hseq as [Hj Hlt]. rewrite run_dir_numbered in Ed. exists j.
    assert (Hd0 : d <> []).
    { subst d. intros E. apply (f_equal (@length _)) in E. rewrite numbered_length in E. simpl in E. lia. }
    split; [lia|]. split; [exact Ed|]. split; [rewrite <- Hn; subst d; symmetry; apply Kn|]. split.
    { intros i Hi. rewrite <- Kn. rewrite <- run_dir_numbered. apply Hpre, Hlt, Hi. }
    split.
    + apply above_dirs; [exact W'|]. eapply run_makedirs_dir; eauto.
    + intros q Hq. assert (Hq2 : s' q = s1 q).
      { replace s' with (snd (run (makedirs d true) s1)) by (rewrite Hmk; reflexivity).
        apply (only_run _ _ _ _ (makedirs_only d true)); tauto. }
      rewrite Hq2. apply K1. left. intros Hp. apply Hq. subst d. destruct Hp as [t Et].
      exists (t ++ [name ^^ "-" ^^ pad3 j]). unfold numbered. rewrite app_assoc, <- Et, <- app_assoc. reflexivity.
  - right. assert (Hall' : forall j, (j <= 100)%nat -> s (numbered w name j) <> None).
    { intros j Hj. rewrite <- Kn. rewrite <- run_dir_numbered. apply Hall. apply in_seq. lia. }
    split; [exact Hall'|]. split.
    + destruct Hl as [(E & _)|(pre & j & Hs & ->)]; [discriminate|]. rewrite run_dir_numbered. f_equal.
      assert (El : last (seq 0 101) 0%nat = j) by (rewrite Hs; apply last_last). rewrite <- El. reflexivity.
    + destruct (s (w ++ ["pyoof_out"])) eqn:Eb; [simpl in H1; inversion H1; reflexivity|].
      exfalso. apply (Hall' O); [lia|]. unfold numbered.
      change ["pyoof_out"; name ^^ "-" ^^ pad3 0] with (["pyoof_out"] ++ [name ^^ "-" ^^ pad3 0]).
      rewrite app_assoc. apply wf_under; assumption.
Qed.

(** ** Crash points: nothing that existed is altered while a number is free *)

Lemma fit_always orc a s : wf s -> free_number a s -> always (unaltered s) (fit_zpoly orc a) s.
Proof.
  intros W Hfree. unfold fit_zpoly. cbv zeta. fold (fit_dir a).
  set (none := fun _ : path => False).
  assert (HK : forall M s1, keeps M none s s1 -> unaltered s s1).
  { intros M s1 Hk q Hq. apply Hk; [intros []|auto]. }
  apply always_bind.
  { eapply always_impl; [apply (HK none)|]. apply only_always. apply load_only. }
  intros c s1 Hc. assert (E1 : s1 = s).
  { destruct (fa_config_file a) as [p|]; cbn in Hc.
    - destruct (s p) as [[|[]]|]; simpl in Hc; inversion Hc; reflexivity.
    - inversion Hc; reflexivity. }
  subst s1. apply always_bind.
  { eapply always_impl; [apply (HK (dir_region (fit_dir a) (fa_name a)))|]. apply only_always. apply pick_only. }
  intros d s1 Hd.
  assert (Hun : unaltered s s1).
  { apply (HK (dir_region (fit_dir a) (fa_name a))).
    replace s1 with (snd (run (pick_dir (fit_dir a) (fa_name a)) s)) by (rewrite Hd; reflexivity).
    apply only_run, pick_only. }
  apply pick_post in Hd; [|exact W].
  destruct Hd as [(j & Hj & Ed & Hn & _)|(Hall & _)].
  2:{ exfalso. destruct Hfree as (j & Hj & Hn). exact (Hall j Hj Hn). }
  apply always_bind; [destruct (snr_values orc a); split; auto|].
  intros snrs s2 Hsnr. rewrite run_lift in Hsnr. inversion Hsnr; subst s2.
  eapply always_impl; [|apply only_always, fit_orders_only].
  intros s3 Hk q Hq. rewrite <- (Hun q Hq). apply Hk.
  - intros (c0 & t & ->). apply Hq. apply wf_under; assumption.
  - left. rewrite (Hun q Hq). exact Hq.
Qed.

Lemma load_state f s c s' : run (load_config f) s = (Ok c, s') -> s' = s.
Proof.
  destruct f as [p|]; cbn; intros H.
  - destruct (s p) as [[|[]]|]; simpl in H; inversion H; reflexivity.
  - inversion H; reflexivity.
Qed.

(** ** The state after a run that returned, in a fresh directory *)
Lemma fit_post orc a s s' : wf s -> free_number a s -> run (fit_zpoly orc a) s = (Ok tt, s') ->
  exists c j snrs fl s1,
    let d := numbered (fit_dir a) (fa_name a) j in
    run (load_config (fa_config_file a)) s = (Ok c, s) /\ snr_values orc a = Ok snrs /\
    (j <= 100)%nat /\ s d = None /\ (forall i, (i < j)%nat -> s (numbered (fit_dir a) (fa_name a) i) <> None) /\
    (forall q, above q d -> s1 q = Some Dir) /\ (forall q, ~ above q d -> s1 q = s q) /\
    length fl = fa_order_max a /\ chain orc a c 1 [] fl /\
    s' = apply_writes s1 (map (under d) (all_writes a snrs 1 fl)).
Proof.
  intros W Hfree H. unfold fit_zpoly in H. cbv zeta in H. fold (fit_dir a) in H.
  apply run_bind_inv in H. destruct H as (c & s0 & Hc & H). assert (s0 = s) by (eapply load_state; eauto). subst s0.
  apply run_bind_inv in H. destruct H as (d & s1 & Hd & H).
  apply run_lift_inv in H. destruct H as (snrs & Hsnr & H).
  apply pick_post in Hd; [|exact W].
  destruct Hd as [(j & Hj & Ed & Hn & Hlt & Hab & Hnab)|(Hall & _)].
  2:{ exfalso. destruct Hfree as (j & Hj & Hn). exact (Hall j Hj Hn). }
  apply (fit_orders_post _ _ _ _ _ _ _ []) in H.
  - destruct H as (fl & Hl & Hch & Hs'). exists c, j, snrs, fl, s1. cbv zeta. subst d.
    repeat match goal with |- _ /\ _ => split end; auto.
  - apply Hab. exists []. rewrite app_nil_r. reflexivity.
  - left. rewrite Hnab.
    + apply wf_under; assumption.
    + intros [t Et]. apply (f_equal (@length _)) in Et. rewrite !app_length in Et. simpl in Et. lia.
  - lia.
  - rewrite andb_false_r. discriminate.
Qed.
