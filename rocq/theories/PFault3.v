(** What a failed call costs: nothing but the current run, as long as the questions
    whether a path exists are answered. *)
From Coq Require Import String Ascii List Lia.
From Verif Require Import PyBase PyLib Num MZernike MMath MAperture MRad MCore MFs MOut SOut SFit SOrder MFault SFault PFs PStr PFit PFit2 PFit3 PFit4 PFit5 PFit6 PFit7 PFit8 PFit9 PCrash PCrash2 PConc PConc2 PDemo PFault PFault2.
Import ListNotations.
Open Scope R_scope.
Open Scope string_scope.
Open Scope list_scope.
Open Scope prog_scope.

Lemma bad_none {A} stat bad (p : prog A) i s : (forall j, (i <= j)%nat -> bad j = false) -> run_bad stat bad i p s = run p s.
Proof.
  revert i s. induction p as [a|e|X o k IH]; intros i s H; cbn [run_bad run]; [reflexivity|reflexivity|].
  rewrite (H i (le_n i)). destruct (exec o s) as [x s']. apply IH. intros j Hj. apply H. lia.
Qed.

Lemma fit_disk orc a s bad i r s' : file_tree s -> free_number a s -> run_bad false bad i (fit_zpoly orc a) s = (r, s') ->
  ((r, s') = run (fit_zpoly orc a) s \/ (r = Err OSError /\ exists n, s' = snd (steps n (fit_zpoly orc a) s))) /\
  unaltered s s' /\ forall sf, run (fit_zpoly orc a) s = (Ok tt, sf) -> under_way s sf s'.
Proof.
  intros W F H. destruct (run_cut bad (fit_zpoly orc a) (tame_fit orc a) i s) as [E|[m E]]; rewrite H in E.
  - split; [left; exact E|]. pose proof (always_run _ _ _ (fit_always orc a s W F)) as U. rewrite <- E in U. split; [exact U|].
    intros sf R q. rewrite R in E. injection E as -> ->. right. right. reflexivity.
  - injection E as -> ->. split; [right; split; [reflexivity|exists m; reflexivity]|]. split; [apply (always_steps (unaltered s)), fit_always; assumption|].
    intros sf R q. exact (crash_final orc a s sf m q W F R).
Qed.

(** The calls before the choice of the directory. *)
Definition asked (a : fit_args) : nat := match fa_config_file a with None => 1 | Some _ => 2 end.
Lemma makedirs_there base x s : s base <> None -> s (base ++ [x]) = Some Dir -> run (makedirs (base ++ [x]) true) s = (Ok tt, s).
Proof.
  intros Hb Hd. unfold makedirs. rewrite rev_app_distr. cbn [rev app makedirs_rev]. rewrite rev_involutive, run_bind, run_call. cbn [exec fst snd].
  destruct (s base) eqn:Eb; [|congruence]. cbn [bindP]. rewrite run_bind, run_call. cbn [exec fst snd]. rewrite Hd. cbn [bindP]. cbn [fst snd].
  rewrite run_bind, run_call. cbn [exec fst snd]. rewrite Hd. reflexivity.
Qed.
Lemma choose_blind {B} base name t last (f : path -> prog B) s bad i : bad i = true -> (forall j, (i < j)%nat -> bad j = false) -> s base <> None -> s (run_dir base name 0) = Some Dir ->
  run_bad true bad i (bindP (choose_dir base name (0%nat :: t) last) f) s = run (f (run_dir base name 0)) s.
Proof.
  intros Hi Hn Hb Hd. cbn [choose_dir]. cbv zeta. cbn [call bindP run_bad]. rewrite Hi. cbn [refused].
  rewrite bad_none by (intros j Hj; apply Hn; lia). unfold run_dir in *. rewrite !run_bind, makedirs_there by assumption. reflexivity.
Qed.

Lemma load_blind {B} a s c (f : config -> prog B) : configured a s c ->
  run_bad true (Nat.eqb (asked a)) 0 (bindP (load_config (fa_config_file a)) f) s = run_bad true (Nat.eqb (asked a)) (asked a - 1) (f c) s.
Proof.
  unfold configured, asked, load_config. destruct (fa_config_file a) as [p|]; intros Hc.
  - cbn [callE bindP run_bad Nat.eqb exec]. rewrite Hc. reflexivity.
  - rewrite Hc. reflexivity.
Qed.
Lemma blind orc a s c : file_tree s -> s (fit_dir a ++ ["pyoof_out"]) = Some Dir -> plain_dir s (numbered (fit_dir a) (fa_name a) 0) ->
  configured a s c -> valid_config c -> cooperative orc -> 0 < tel_pr (fa_tel a) -> three_maps a -> (1 <= fa_order_max a)%nat ->
  exists s' f, run_bad true (Nat.eqb (asked a)) 0 (fit_zpoly orc a) s = (Ok tt, s') /\ fitted_ok orc a c 1 f /\ ft_init f = cf_init c /\
    s' (numbered (fit_dir a) (fa_name a) 0 ++ ["fitpar_n1.csv"]) = Some (File (Params (zip3 (param_names 1) (ft_sol f) (ft_init f)))).
Proof.
  intros W Hb Hi Hc Hv Hco Hpr H3 HN. unfold fit_zpoly. cbv zeta. fold (fit_dir a).
  set (d := numbered (fit_dir a) (fa_name a) 0) in *. set (bad := Nat.eqb (asked a)).
  unfold bad. rewrite (load_blind a s c _ Hc). fold bad.
  unfold pick_dir. cbv zeta. cbn [call bindP run_bad]. replace (bad (asked a - 1)%nat) with false by (subst bad; unfold asked; destruct (fa_config_file a); reflexivity).
  cbn [exec]. rewrite Hb. cbn [bindP].
  replace (S (asked a - 1)) with (asked a) by (unfold asked; destruct (fa_config_file a); reflexivity).
  change (seq 0 101) with (0%nat :: seq 1 100). rewrite choose_blind.
  - rewrite run_dir_numbered. fold d. destruct (snr_values_ok orc a H3) as (snrs & ->). cbn [lift bindP].
    assert (Hr : ready a d 1 s []).
    { split; [exact Hi|]. split; [congruence|]. rewrite andb_false_r. discriminate. }
    destruct (fit_orders_progress orc a c snrs d (fa_order_max a) 1 s [] (cooperative_responsive orc a c Hco) Hv Hpr (le_n 1) (le_n _) Hr) as (s' & E).
    exists s'. rewrite E. pose proof Hi as (I1 & I2 & _). apply (fit_orders_post _ _ _ _ _ _ _ []) in E; [|exact I1|exact I2|lia|rewrite andb_false_r; discriminate].
    destruct E as (fl & Hl & Hch & Hs'). exists (nth 0 fl fit0). split; [reflexivity|].
    destruct (chain_nth _ _ _ _ _ _ 0 Hch) as [G1 G2]; [lia|]. split; [exact G1|].
    split; [rewrite G2; unfold start_of; rewrite andb_false_r; apply app_nil_r|]. rewrite Hs'.
    apply (all_writes_lookup d s a snrs 1 fl 0); [lia|discriminate|]. left. reflexivity.
  - subst bad. apply PeanoNat.Nat.eqb_refl.
  - intros j Hj. subst bad. apply PeanoNat.Nat.eqb_neq. lia.
  - rewrite Hb. discriminate.
  - rewrite run_dir_numbered. apply Hi.
Qed.
Lemma blind_rows orc a s c : file_tree s -> s (fit_dir a ++ ["pyoof_out"]) = Some Dir -> plain_dir s (numbered (fit_dir a) (fa_name a) 0) ->
  configured a s c -> valid_config c -> cooperative orc -> 0 < tel_pr (fa_tel a) -> three_maps a -> (1 <= fa_order_max a)%nat ->
  exists i s' rows out, run_bad true (Nat.eqb i) 0 (fit_zpoly orc a) s = (Ok tt, s') /\ fitpar_rows s' (numbered (fit_dir a) (fa_name a) 0) 1 rows /\
    map parinit rows = cf_init c /\ answered orc a c 1 (map parinit rows) out /\ params_complete (cf_fixed c) (cf_excluded c) 3 (lo_x out) = Ok (map parfit rows).
Proof.
  intros H1 H2 H4 H5 H6 H7 H8 H9 H10. exists (asked a).
  destruct (blind orc a s c H1 H2 H4 H5 H6 H7 H8 H9 H10) as (s' & f & Hr & Hf & Hi & Hq).
  assert (L : length (ft_sol f) = length (param_names 1)) by (rewrite param_names_length; apply Hf).
  assert (L2 : length (ft_init f) = length (param_names 1)) by (rewrite <- L; apply Hf).
  exists s', (zip3 (param_names 1) (ft_sol f) (ft_init f)), (ft_out f). rewrite map_parinit, map_parfit by assumption. split; [exact Hr|]. split; [exact Hq|].
  split; [exact Hi|]. destruct Hf as (F1 & F2 & F3 & F4 & F5 & _). split; [|exact F5]. exists (ft_x0 f), (ft_lo f), (ft_hi f). auto.
Qed.

(** One earlier run. *)
Definition one_fs : fs := listed [[]; ["w"]; ["w"; "pyoof_out"]; ["w"; "pyoof_out"; "obs-000"]] ["w"; "pyoof_out"; "obs-000"; "fitpar_n1.csv"].
Lemma one_tree : file_tree one_fs.
Proof.
  apply listed_tree; [left; reflexivity| |exists ["w"; "pyoof_out"; "obs-000"], "fitpar_n1.csv"; split; [reflexivity|cbn; tauto]].
  intros p c H. cbn [In] in *. destruct H as [H|[H|[H|[H|[]]]]].
  - destruct p; discriminate H.
  - change ["w"] with ([] ++ ["w"]) in H. apply app_inj_tail in H. destruct H as [<- _]. auto.
  - change ["w"; "pyoof_out"] with (["w"] ++ ["pyoof_out"]) in H. apply app_inj_tail in H. destruct H as [<- _]. auto.
  - change ["w"; "pyoof_out"; "obs-000"] with (["w"; "pyoof_out"] ++ ["obs-000"]) in H. apply app_inj_tail in H. destruct H as [<- _]. auto.
Qed.
Lemma one_plain : plain_dir one_fs (numbered ["w"] "obs" 0).
Proof.
  change (numbered ["w"] "obs" 0) with ["w"; "pyoof_out"; "obs-000"]. split; [reflexivity|]. split; [left; reflexivity|].
  intros r Hr _. unfold one_fs, listed. destruct (in_dec _ _ _) as [H|_].
  - exfalso. destruct r; [congruence|]. cbn [In] in H. destruct H as [H|[H|[H|[H|[]]]]]; apply (f_equal (@length _)) in H; rewrite app_length in H; cbn in H; lia.
  - destruct (path_eq_dec _ _); discriminate.
Qed.
Lemma one_free N : free_number (demo_args "obs" N) one_fs.
Proof. exists 1%nat. split; [lia|]. reflexivity. Qed.
Lemma blind_overwrites : exists orc a s i s' q, file_tree s /\ free_number a s /\ run_bad true (Nat.eqb i) 0 (fit_zpoly orc a) s = (Ok tt, s') /\ s q <> None /\ s' q <> s q.
Proof.
  destruct (blind_rows demo_oracle (demo_args "obs" 1) one_fs default_config) as (i & s' & rows & out & Hr & Hq & Hi & _).
  - exact one_tree.
  - reflexivity.
  - exact one_plain.
  - reflexivity.
  - exact default_valid.
  - exact demo_cooperative.
  - cbn. lra.
  - apply demo_maps.
  - apply le_n.
  - exists demo_oracle, (demo_args "obs" 1), one_fs, i, s', ["w"; "pyoof_out"; "obs-000"; "fitpar_n1.csv"]. split; [exact one_tree|]. split; [apply one_free|]. split; [exact Hr|].
    assert (E : one_fs ["w"; "pyoof_out"; "obs-000"; "fitpar_n1.csv"] = Some (File (Params []))) by reflexivity.
    rewrite E. split; [discriminate|]. intros E2. unfold fitpar_rows in Hq.
    change (numbered (fit_dir (demo_args "obs" 1)) (fa_name (demo_args "obs" 1)) 0 ++ _) with ["w"; "pyoof_out"; "obs-000"; "fitpar_n1.csv"] in Hq.
    rewrite E2 in Hq. assert (rows = []) by congruence. subst rows. discriminate Hi.
Qed.

(** ** Every write can fail *)
Lemma put_point {A} (p : prog A) s r sf q : run p s = (r, sf) -> ~ complete s q -> complete sf q ->
  exists n d k, fst (steps n p s) = Do (Put q d) k /\ snd (steps n p s) q = Some (File Partial).
Proof.
  revert s. induction p as [a|e|X o k IH]; intros s H N F; [injection H as <- <-; contradiction..|].
  rewrite run_do in H.
  assert (D : complete (snd (exec o s)) q \/ ~ complete (snd (exec o s)) q).
  { unfold complete. destruct (snd (exec o s) q) as [[|d]|]; [right; intros (dc & _ & E); discriminate| |right; intros (dc & _ & E); discriminate].
    destruct d; try (left; eexists; split; [|reflexivity]; discriminate). right. intros (dc & Hd & E). injection E as <-. congruence. }
  destruct D as [D|D].
  - assert (C1 : forall s', snd (exec o s) = s' -> s' q = s q -> False).
    { intros s' E1 E2. apply N. destruct D as (dc & H1 & H2). exists dc. split; [exact H1|]. congruence. }
    destruct o; cbn [exec snd] in *; try (exfalso; apply (C1 _ eq_refl); reflexivity).
    + exfalso. destruct (s p) as [x|] eqn:Ep; [apply (C1 _ eq_refl); reflexivity|].
      destruct (s (parent p)) as [[|d]|]; try (apply (C1 _ eq_refl); reflexivity). cbn [snd] in *.
      destruct D as (dc & H1 & H2). unfold upd in H2. destruct (path_eq_dec q p); [discriminate|]. apply N. exists dc. auto.
    + exfalso. assert (U : forall s', s' = upd s p (File Partial) -> complete s' q -> False).
      { intros s' -> (dc & H1 & H2). unfold upd in H2. destruct (path_eq_dec q p); [injection H2 as <-; congruence|]. apply N. exists dc. auto. }
      destruct (s p) as [[|d]|]; [apply (C1 _ eq_refl); reflexivity|exact (U _ eq_refl D)|].
      destruct (s (parent p)) as [[|d]|]; [exact (U _ eq_refl D)|apply (C1 _ eq_refl); reflexivity..].
    + destruct (path_eq_dec q p) as [-> |Hq].
      * exists 0%nat, d, k. split; [reflexivity|]. cbn [steps snd]. destruct (s p) as [[|x]|] eqn:Ep; try (exfalso; apply (C1 _ eq_refl); exact Ep || reflexivity).
        assert (x = Partial) as ->; [|reflexivity]. destruct x; try reflexivity; exfalso; apply N; eexists; (split; [|exact Ep]); discriminate.
      * exfalso. apply (C1 _ eq_refl). destruct (s p) as [[|x]|]; [reflexivity| |reflexivity]. apply upd_other. exact Hq.
  - destruct (IH _ _ H D F) as (n & d & k' & E1 & E2). exists (S n), d, k'. rewrite steps_do. auto.
Qed.
Lemma fail_put {A} (p : prog A) q d k n i s : fst (steps n p s) = Do (Put q d) k ->
  run_bad false (from (i + n)) i p s = (Err OSError, snd (steps n p s)).
Proof.
  revert p i s. induction n as [|n IH]; intros p i s H.
  - cbn in *. subst p. cbn [run_bad]. replace (from (i + 0) i) with true by (symmetry; apply PeanoNat.Nat.leb_le; lia). reflexivity.
  - destruct p as [a|e|X o k0]; [discriminate H..|]. rewrite steps_do in *. cbn [run_bad].
    replace (from (i + S n) i) with false by (symmetry; apply PeanoNat.Nat.leb_gt; lia).
    rewrite <- (IH _ (S i) _ H). replace (i + S n)%nat with (S i + n)%nat by lia. destruct (exec o s) as [x s']. reflexivity.
Qed.
Lemma every_file {A} (p : prog A) s r sf q : run p s = (r, sf) -> ~ complete s q -> complete sf q ->
  exists n s', run_bad false (from n) 0 p s = (Err OSError, s') /\ s' q = Some (File Partial).
Proof.
  intros H N F. destruct (put_point p s r sf q H N F) as (n & d & k & E1 & E2). exists n, (snd (steps n p s)). split; [|exact E2].
  exact (fail_put p q d k n 0 s E1).
Qed.
Lemma reports_tame {A} (p : prog A) : tame p -> reports p.
Proof.
  intros T bad s r s' H. destruct (run_cut bad p T 0 s) as [E|[m E]]; rewrite H in E; [left; exact E|right].
  injection E as -> ->. split; [reflexivity|exists m; reflexivity].
Qed.
Lemma reports_cut {A} (p : prog A) : reports p -> forall bad s r s', run_bad false bad 0 p s = (r, s') -> exists n, s' = snd (steps n p s).
Proof.
  intros Hp bad s r s' H. destruct (Hp bad s r s' H) as [E|(_ & E)]; [|exact E]. destruct (steps_finish p s) as [n Hn]. exists n. rewrite Hn, <- E. reflexivity.
Qed.
