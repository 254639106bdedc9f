(** Two runs of the same name: a schedule under which they share a directory. *)
From Coq Require Import String Ascii List Sorted FunctionalExtensionality.
From Verif Require Import PyBase PyLib Num MZernike SZernike PEnum MMath MAperture PPhase MRad MCore PParams MFs MOut PFs PStr PFit SOut SFit PFit2 PFit3 PFit4 PFit5 PFit6 PFit7 PFit8 PConc.
Import ListNotations.
Open Scope R_scope.
Open Scope string_scope.
Open Scope list_scope.
Open Scope prog_scope.

Definition ended {A} (r : res A) : prog A := lift r.
Lemma steps_done {A} (r : res A) n s : steps n (lift r) s = (lift r, s).
Proof. destruct n, r; reflexivity. Qed.
Lemma steps_finish {A} (p : prog A) s : exists n, steps n p s = (lift (fst (run p s)), snd (run p s)).
Proof.
  revert s. induction p as [a|e|X o k IH]; intros s; [exists O; reflexivity|exists O; reflexivity|].
  simpl. destruct (exec o s) as [x s1] eqn:Ex. destruct (IH x s1) as [n Hn]. exists (S n). simpl. rewrite Ex. exact Hn.
Qed.
Lemma steps_S {A} n (p : prog A) s : steps (S n) p s = let '(p1, s1) := steps 1 p s in steps n p1 s1.
Proof.
  destruct p as [a|e|X o k]; [destruct n; reflexivity|destruct n; reflexivity|]. simpl. destruct (exec o s); reflexivity.
Qed.
Lemma interleave_app {A B} l1 l2 (p : prog A) (q : prog B) s :
  interleave (l1 ++ l2) p q s = let '(p1, q1, s1) := interleave l1 p q s in interleave l2 p1 q1 s1.
Proof.
  revert p q s. induction l1 as [|b t IH]; intros p q s; [reflexivity|]. cbn [app interleave]. destruct b.
  - destruct (steps 1 p s) as [p1 s1]. apply IH.
  - destruct (steps 1 q s) as [q1 s1]. apply IH.
Qed.
Lemma interleave_left {A B} n (p : prog A) (q : prog B) s :
  interleave (repeat true n) p q s = (fst (steps n p s), q, snd (steps n p s)).
Proof.
  revert p s. induction n as [|n IH]; intros p s; [reflexivity|]. cbn [repeat interleave]. rewrite (steps_S n p s).
  destruct (steps 1 p s) as [p1 s1]. apply IH.
Qed.
Lemma interleave_right {A B} n (p : prog A) (q : prog B) s :
  interleave (repeat false n) p q s = (p, fst (steps n q s), snd (steps n q s)).
Proof.
  revert q s. induction n as [|n IH]; intros q s; [reflexivity|]. cbn [repeat interleave]. rewrite (steps_S n q s).
  destruct (steps 1 q s) as [q1 s1]. apply IH.
Qed.
(** Running one after the other is a schedule. *)
Lemma sequential_schedule {A B} (p : prog A) (q : prog B) s : exists sched,
  interleave sched p q s = (lift (fst (run p s)), lift (fst (run q (snd (run p s)))), snd (run q (snd (run p s)))).
Proof.
  destruct (steps_finish p s) as [n Hn]. destruct (steps_finish q (snd (run p s))) as [m Hm].
  exists (repeat true n ++ repeat false m). rewrite interleave_app, interleave_left, Hn, interleave_right. cbn [fst snd]. rewrite Hm. reflexivity.
Qed.

Lemma pick_steps {A} w name (K : path -> prog A) s : s (w ++ ["pyoof_out"]) = Some Dir -> s (numbered w name 0) = None ->
  steps 2 (bindP (pick_dir w name) K) s = (bindP (makedirs (numbered w name 0) true) (fun _ => K (numbered w name 0)), s).
Proof.
  intros Hb Hn. unfold pick_dir. cbv zeta. change (seq 0 101) with (0%nat :: seq 1 100). cbn [choose_dir]. cbv zeta. rewrite run_dir_numbered.
  cbn [call bindP steps exec]. rewrite Hb. cbn [bindP steps exec]. rewrite Hn. rewrite bind_assoc. reflexivity.
Qed.
Lemma numbered_snoc w name j : numbered w name j = (w ++ ["pyoof_out"]) ++ [name ^^ "-" ^^ pad3 j].
Proof. unfold numbered. rewrite <- app_assoc. reflexivity. Qed.
Lemma mk_steps_first {A} p c (K : prog A) s : s p = Some Dir -> s (p ++ [c]) = None ->
  steps 2 (bindP (makedirs (p ++ [c]) true) (fun _ => K)) s = (K, upd s (p ++ [c]) Dir).
Proof.
  intros Hp Hn. unfold makedirs. rewrite rev_unit. cbn [makedirs_rev call bindP steps exec]. rewrite rev_involutive, Hp.
  assert (Er : rev (c :: rev p) = p ++ [c]) by (simpl; rewrite rev_involutive; reflexivity).
  cbn [bindP steps exec]. rewrite Er, Hn, parent_snoc, Hp. reflexivity.
Qed.
Lemma mk_steps_second {A} p c (K : prog A) s : s p = Some Dir -> s (p ++ [c]) = Some Dir ->
  steps 3 (bindP (makedirs (p ++ [c]) true) (fun _ => K)) s = (K, s).
Proof.
  intros Hp Hn. unfold makedirs. rewrite rev_unit. cbn [makedirs_rev call bindP steps exec]. rewrite rev_involutive, Hp.
  assert (Er : rev (c :: rev p) = p ++ [c]) by (simpl; rewrite rev_involutive; reflexivity).
  cbn [bindP steps exec]. rewrite Er, Hn. cbn [bindP steps exec]. rewrite Hn. reflexivity.
Qed.

Lemma inv_all d s a snrs n fl : inv d s -> inv d (apply_writes s (map (under d) (all_writes a snrs n fl))).
Proof.
  revert n s. induction fl as [|f t IH]; intros n s H; [exact H|]. cbn [all_writes]. rewrite map_app, apply_writes_app. apply IH, inv_order, H.
Qed.

Lemma race oa ob a b s :
  wf s -> fit_dir a = fit_dir b -> fa_name a = fa_name b -> fa_config_file a = None -> fa_config_file b = None ->
  usable (fit_dir a) s -> s (base_of a) = Some Dir -> s (numbered (fit_dir a) (fa_name a) 0) = None ->
  cooperative oa -> cooperative ob -> 0 < tel_pr (fa_tel a) -> 0 < tel_pr (fa_tel b) -> three_maps a -> three_maps b ->
  (1 <= fa_order_max b)%nat ->
  exists sched s' f,
    interleave sched (fit_zpoly oa a) (fit_zpoly ob b) s = (Ret tt, Ret tt, s') /\
    (forall j, (1 <= j)%nat -> s' (numbered (fit_dir a) (fa_name a) j) = s (numbered (fit_dir a) (fa_name a) j)) /\
    fitted_ok ob b default_config 1 f /\ ft_init f = cf_init default_config /\
    s' (numbered (fit_dir a) (fa_name a) 0 ++ ["fitpar_n1.csv"]) = Some (File (Params (zip3 (param_names 1) (ft_sol f) (ft_init f)))).
Proof.
  intros W Hd Hnm Ca Cb [Hw _] Hb Hn Oa Ob Pa Pb Ta Tb HN. set (d := numbered (fit_dir a) (fa_name a) 0) in *.
  destruct (snr_values_ok oa a Ta) as (sa & Ea). destruct (snr_values_ok ob b Tb) as (sb & Eb).
  set (Ka := fit_orders oa a default_config sa d (seq 1 (fa_order_max a))).
  set (Kb := fit_orders ob b default_config sb d (seq 1 (fa_order_max b))).
  assert (Fa : fit_zpoly oa a = bindP (pick_dir (fit_dir a) (fa_name a)) (fun nd => bindP (lift (snr_values oa a)) (fun snrs => fit_orders oa a default_config snrs nd (seq 1 (fa_order_max a))))).
  { unfold fit_zpoly. rewrite Ca. reflexivity. }
  assert (Fb : fit_zpoly ob b = bindP (pick_dir (fit_dir a) (fa_name a)) (fun nd => bindP (lift (snr_values ob b)) (fun snrs => fit_orders ob b default_config snrs nd (seq 1 (fa_order_max b))))).
  { unfold fit_zpoly. rewrite Cb, Hd, Hnm. reflexivity. }
  set (s1 := upd s d Dir).
  assert (Eab : exists sc, interleave sc (fit_zpoly oa a) (fit_zpoly ob b) s = (Ka, Kb, s1)).
  { exists (repeat true 2 ++ repeat false 2 ++ repeat true 2 ++ repeat false 3).
    rewrite Fa, Fb. rewrite interleave_app, interleave_left. rewrite pick_steps by assumption. cbn [fst snd]. fold d.
    rewrite interleave_app, interleave_right. rewrite pick_steps by assumption. cbn [fst snd]. fold d.
    assert (M1 : forall (K : prog unit), steps 2 (bindP (makedirs d true) (fun _ => K)) s = (K, s1)).
    { intros K. unfold s1, d. rewrite numbered_snoc. apply mk_steps_first; [exact Hb|]. rewrite <- numbered_snoc. exact Hn. }
    assert (M2 : forall (K : prog unit), steps 3 (bindP (makedirs d true) (fun _ => K)) s1 = (K, s1)).
    { intros K. unfold d. rewrite numbered_snoc. apply mk_steps_second.
      - unfold s1, upd. destruct (path_eq_dec _ _); [reflexivity|exact Hb].
      - rewrite <- numbered_snoc. apply upd_same. }
    rewrite interleave_app, interleave_left, M1. cbn [fst snd]. rewrite interleave_right, M2. rewrite Ea, Eb. reflexivity. }
  destruct Eab as [sc Hsc].
  assert (X : forall r, r <> [] -> s1 (d ++ r) = None).
  { intros r Hr. unfold s1. rewrite upd_other by (apply app_ne_self, Hr). apply wf_under; assumption. }
  assert (I1 : inv d s1).
  { split; [apply upd_same|]. split; [left; apply X; discriminate|]. intros r Hr _. rewrite X by exact Hr. discriminate. }
  assert (R1 : forall x q, inv d q -> ready x d 1 q []).
  { intros x q Hq. split; [exact Hq|]. split; [congruence|]. rewrite andb_false_r. discriminate. }
  destruct (fit_orders_progress oa a default_config sa d (fa_order_max a) 1 s1 [] (cooperative_responsive oa a default_config Oa) default_valid Pa (le_n 1) (le_n _) (R1 a s1 I1)) as (s2 & E2). fold Ka in E2.
  assert (P2 : exists fl, s2 = apply_writes s1 (map (under d) (all_writes a sa 1 fl))).
  { pose proof E2 as E. apply (fit_orders_post _ _ _ _ _ _ _ []) in E; [|apply I1|apply I1|lia|rewrite andb_false_r; discriminate].
    destruct E as (fl & _ & _ & E). eauto. }
  destruct P2 as [fla Hs2]. assert (I2 : inv d s2) by (rewrite Hs2; apply inv_all, I1).
  destruct (fit_orders_progress ob b default_config sb d (fa_order_max b) 1 s2 [] (cooperative_responsive ob b default_config Ob) default_valid Pb (le_n 1) (le_n _) (R1 b s2 I2)) as (s3 & E3). fold Kb in E3.
  pose proof E3 as E. apply (fit_orders_post _ _ _ _ _ _ _ []) in E; [|apply I2|apply I2|lia|rewrite andb_false_r; discriminate].
  destruct E as (fl & Hl & Hch & Hs3).
  destruct (sequential_schedule Ka Kb s1) as [sc2 Hsc2]. rewrite E2 in Hsc2. cbn [fst snd] in Hsc2. rewrite E3 in Hsc2. cbn [fst snd lift] in Hsc2.
  exists (sc ++ sc2), s3, (nth 0 fl fit0). split; [rewrite interleave_app, Hsc; exact Hsc2|]. split; [|split; [|split]].
  - intros j Hj. assert (N : forall r, numbered (fit_dir a) (fa_name a) j <> d ++ r).
    { intros r E. assert (r = []) as ->.
      { apply (f_equal (@length _)) in E. unfold d in E. rewrite app_length, !numbered_length in E. destruct r; [reflexivity|simpl in E; lia]. }
      rewrite app_nil_r in E. apply numbered_inj in E. lia. }
    rewrite Hs3, writes_under_other by (intros (r & _ & E); exact (N r E)). rewrite Hs2, writes_under_other by (intros (r & _ & E); exact (N r E)).
    unfold s1. rewrite upd_other; [reflexivity|]. intros E. apply (N []). rewrite app_nil_r. exact E.
  - destruct (chain_nth _ _ _ _ _ _ 0 Hch) as [G1 _]; [lia|]. exact G1.
  - destruct (chain_nth _ _ _ _ _ _ 0 Hch) as [_ G2]; [lia|]. rewrite G2. unfold start_of. rewrite andb_false_r. apply app_nil_r.
  - rewrite Hs3. apply (all_writes_lookup d s2 b sb 1 fl 0); [lia|discriminate|]. left. reflexivity.
Qed.
