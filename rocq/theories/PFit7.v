(** fit_zpoly: completion, feasibility of the starting points, the 102nd run. *)
From Coq Require Import String Ascii List Sorted FunctionalExtensionality.
From Verif Require Import PyBase PyLib Num MZernike SZernike PEnum MMath MAperture PPhase MRad MCore PParams MFs MOut PFs PStr PFit SOut SFit PFit2 PFit3 PFit4 PFit5 PFit6.
Import ListNotations.
Open Scope R_scope.
Open Scope string_scope.
Open Scope list_scope.
Open Scope prog_scope.

Lemma inv_writes d s l : inv d s ->
  (forall r nd, In (r, nd) l -> r <> [] /\ ((r = ["plots"] /\ nd = Dir) \/ (r <> ["plots"] /\ exists dc, dc <> Partial /\ nd = File dc))) ->
  inv d (apply_writes s (map (under d) l)).
Proof.
  revert s. induction l as [|[r nd] t IH]; intros s H Hl; [exact H|]. cbn [map under apply_writes fst snd].
  apply IH; [|intros; apply Hl; right; assumption].
  destruct (Hl r nd (or_introl eq_refl)) as [Hr [(-> & ->)|(Hp & dc & _ & ->)]].
  - apply inv_upd_plots, H.
  - apply inv_upd_file; assumption.
Qed.
Lemma order_writes_not_nil a snrs n f r nd : In (r, nd) (order_writes a snrs n f) -> r <> [].
Proof.
  intros H ->. apply (rel_not_nil n (fa_make_plots a)). rewrite <- (order_writes_names a snrs n f).
  apply in_map_iff. exists ([], nd). auto.
Qed.
Lemma inv_order d s a snrs n f : inv d s -> inv d (apply_writes s (map (under d) (order_writes a snrs n f))).
Proof.
  intros H. apply inv_writes; [exact H|]. intros r nd Hin. split; [eapply order_writes_not_nil; eauto|eapply order_writes_node; eauto].
Qed.
Lemma order_lookup d s a snrs n f r nd : In (r, nd) (order_writes a snrs n f) ->
  apply_writes s (map (under d) (order_writes a snrs n f)) (d ++ r) = Some nd.
Proof.
  intros H. apply writes_under_in; [exact H|]. intros m Hm.
  eapply nodup_fst_unique; [|exact Hm|exact H]. rewrite order_writes_names. apply rel_names_nodup.
Qed.
Lemma order_data_files d s a snrs n f g : (n <> 1%nat -> has_file s (d ++ [g])) -> In g data_files ->
  has_file (apply_writes s (map (under d) (order_writes a snrs n f))) (d ++ [g]).
Proof.
  intros H Hg. assert (Hp : [g] <> ["plots"]) by (intros E; inversion E; subst g; unfold data_files in Hg; cbn [In] in Hg; str_in Hg).
  destruct (in_dec path_eq_dec [g] (map fst (order_writes a snrs n f))) as [Hin|Hin].
  - apply in_map_iff in Hin. destruct Hin as ([r nd] & E & Hin). simpl in E. subst r.
    pose proof (order_writes_node _ _ _ _ _ _ Hin) as [(E & _)|(_ & dc & _ & ->)]; [congruence|].
    exists dc. apply order_lookup, Hin.
  - destruct (Nat.eq_dec n 1) as [->|Hn].
    + exfalso. apply Hin. rewrite order_writes_names. apply rel_names_in. right. left. split; [reflexivity|]. exists g.
      split; [reflexivity|]. unfold data_files in Hg. cbn [In] in Hg |- *. tauto.
    + destruct (H Hn) as [dc E]. exists dc. rewrite writes_under_other; [exact E|].
      intros (r & Hr & E2). apply app_inv_head in E2. subst r. contradiction.
Qed.

Lemma n_coeff_double n : (2 * n_coeff n = (n + 1) * (n + 2))%nat.
Proof. rewrite <- ln_list_length, ln_list_swap, map_length. apply nl_list_length_nat. Qed.
Lemma half_tri n : (n * (n + 1) / 2 = n_coeff n - (n + 1))%nat.
Proof.
  pose proof (n_coeff_double n) as H. assert (E : (n * (n + 1) = (n_coeff n - (n + 1)) * 2)%nat) by nia.
  rewrite E. apply Nat.div_mul. lia.
Qed.
Lemma n_coeff_pred n : (1 <= n)%nat -> (n_coeff n = n_coeff (n - 1) + (n + 1))%nat.
Proof.
  intros H. pose proof (n_coeff_double n). pose proof (n_coeff_double (n - 1)).
  destruct n as [|n]; [lia|]. replace (S n - 1)%nat with n in * by lia. nia.
Qed.

(** Loop invariant before order n. *)
Definition ready (a : fit_args) (d : path) (n : nat) (s : fs) (prev : list R) : Prop :=
  inv d s /\ (n <> 1%nat -> forall f, In f data_files -> has_file s (d ++ [f])) /\
  (fa_fit_previous a && negb (Nat.eqb n 1) = true -> length prev = (5 + n_coeff (n - 1))%nat /\ exists rows,
     s (d ++ [fitpar_name (n - 1)]) = Some (File (Params rows)) /\ map (fun '(_, fit, _) => fit) rows = prev).

Lemma start_run a c d n s prev : ready a d n s prev -> run (start_params c (fa_fit_previous a) d n) s = (Ok (start_of a c n prev), s).
Proof.
  intros (_ & _ & H). unfold start_params, start_of. cbv zeta. destruct (_ && _); [|reflexivity].
  destruct (H eq_refl) as (_ & rows & E & <-). unfold read_parfit. rewrite !run_bind, run_callE. cbn [exec]. rewrite E. reflexivity.
Qed.
Lemma start_length a c d n s prev : (1 <= n)%nat -> length (cf_init c) = 8%nat -> ready a d n s prev -> length (start_of a c n prev) = (5 + n_coeff n)%nat.
Proof.
  intros Hn Hc (_ & _ & H). pose proof (n_coeff_ge3 n Hn). unfold start_of. destruct (_ && _) eqn:E; rewrite app_length, repeat_length.
  - destruct (H eq_refl) as (-> & _). rewrite half_tri. pose proof (n_coeff_pred n Hn). lia.
  - lia.
Qed.
Lemma ready_next orc a c d n s snrs f s1 : (1 <= n)%nat -> fitted_ok orc a c n f -> ready a d n s (ft_sol f) \/ (exists prev, ready a d n s prev) ->
  s1 = apply_writes s (map (under d) (order_writes a snrs n f)) -> ready a d (S n) s1 (ft_sol f).
Proof.
  intros Hn Hok Hr ->. assert (exists prev, ready a d n s prev) as (prev & (H1 & H2 & _)) by (destruct Hr; eauto).
  split; [apply inv_order, H1|]. split.
  - intros _ g Hg. apply order_data_files; [|exact Hg]. intros Hne. apply H2; assumption.
  - intros _. replace (S n - 1)%nat with n by lia. destruct Hok as (_ & _ & _ & _ & _ & _ & _ & _ & L1 & L2).
    rewrite ln_list_length in L1. split; [exact L1|].
    exists (zip3 (param_names n) (ft_sol f) (ft_init f)). split.
    + apply order_lookup. left. reflexivity.
    + apply zip3_fit; rewrite param_names_length, ln_list_length; congruence.
Qed.

Lemma fit_orders_progress orc a c snrs d m n s prev :
  responsive orc a c -> valid_config c -> 0 < tel_pr (fa_tel a) -> (1 <= n)%nat -> (n + m <= S (fa_order_max a))%nat -> ready a d n s prev ->
  exists s', run (fit_orders orc a c snrs d (seq n m)) s = (Ok tt, s').
Proof.
  intros Hco Hv Hpr. revert n s prev. induction m as [|m IH]; intros n s prev Hn Hm Hr; [exists s; reflexivity|].
  cbn [seq fit_orders]. rewrite run_bind. pose proof Hr as (H1 & H2 & H3).
  destruct (fit_order_progress orc a c snrs d n s (start_of a c n prev) Hco Hv Hpr ltac:(lia) H1 H2) as (s1 & E).
  - apply start_run, Hr.
  - eapply start_length; eauto. apply Hv.
  - rewrite E. apply fit_order_post in E; [|apply H1|apply H1]. destruct E as (f & _ & Hok & Hs1).
    apply (IH (S n) s1 (ft_sol f)); [lia|lia|]. eapply ready_next; eauto.
Qed.

(** ** Whole runs *)
Lemma load_configured a s c : configured a s c -> run (load_config (fa_config_file a)) s = (Ok c, s).
Proof.
  unfold configured, load_config. destruct (fa_config_file a) as [p|].
  - intros E. rewrite run_bind, run_callE. cbn [exec]. rewrite E. reflexivity.
  - intros ->. reflexivity.
Qed.
Lemma load_configured_inv a s c s' : run (load_config (fa_config_file a)) s = (Ok c, s') -> configured a s c.
Proof.
  unfold configured, load_config. destruct (fa_config_file a) as [p|]; [|intros H; inversion H; reflexivity].
  rewrite run_bind, run_callE. cbn [exec]. destruct (s p) as [[|[]]|]; simpl; intros H; inversion H; reflexivity.
Qed.

Lemma py_get_nth {A} (l : list A) i x : (i < length l)%nat -> py_get l i = Ok (nth i l x).
Proof. intros H. unfold py_get. rewrite (nth_error_nth' l x H). reflexivity. Qed.
Lemma snr_values_ok orc a : three_maps a -> exists snrs, snr_values orc a = Ok snrs.
Proof.
  intros (H1 & H2 & H3 & H4). unfold snr_values.
  assert (X : forall i, (i < 3)%nat -> exists r,
    bind (py_get (fa_beam a) i) (fun b => bind (py_get (fa_u a) i) (fun u => bind (py_get (fa_v a) i) (fun v =>
    bind (snr_scatter (or_griddata orc) b u v (4 / 100 * PI / 180) (1 / 100 * PI / 180)) (fun x => Ok (or_round2 orc x))))) = Ok r).
  { intros i Hi. rewrite (py_get_nth (fa_beam a) i []), (py_get_nth (fa_u a) i []), (py_get_nth (fa_v a) i []) by lia. cbn [bind].
    destruct (H4 i Hi) as [Hu Hv]. unfold snr_scatter.
    destruct (nth i (fa_u a) []) as [|u0 ut]; [congruence|]. destruct (nth i (fa_v a) []) as [|v0 vt]; [congruence|].
    eexists. reflexivity. }
  destruct (X 0%nat) as [r0 E0]; [lia|]. destruct (X 1%nat) as [r1 E1]; [lia|]. destruct (X 2%nat) as [r2 E2]; [lia|].
  exists [r0; r1; r2]. cbn [mapM]. rewrite E0, E1, E2. reflexivity.
Qed.

Lemma is_prefix_app_not {A} (d : list A) (r t : list A) : r <> [] -> d <> (d ++ r) ++ t.
Proof. intros Hr E. apply (f_equal (@length _)) in E. rewrite !app_length in E. destruct r; [congruence|]. simpl in E. lia. Qed.


Lemma choose_ok base name js last s : s base = Some Dir -> (exists j, In j js /\ s (run_dir base name j) = None) ->
  exists d s', run (choose_dir base name js last) s = (Ok d, s').
Proof.
  intros Hb. revert last. induction js as [|j t IH]; intros last (k & Hk & Hn); [destruct Hk|].
  cbn [choose_dir]. cbv zeta. rewrite run_bind, run_call. cbn [exec fst snd].
  destruct (s (run_dir base name j)) eqn:E.
  - apply IH. destruct Hk as [->|Hk]; [congruence|]. eauto.
  - rewrite run_bind. unfold run_dir in *. rewrite run_makedirs_new by assumption. eexists _, _. reflexivity.
Qed.
Lemma pick_ok w name s : usable w s -> (exists j, (j <= 100)%nat /\ s (numbered w name j) = None) ->
  exists d s', run (pick_dir w name) s = (Ok d, s').
Proof.
  intros [Hw Hb] (j & Hj & Hn). unfold pick_dir. cbv zeta. rewrite run_bind, run_call. cbn [exec fst snd]. rewrite run_bind.
  assert (E : run (if match s (w ++ ["pyoof_out"]) with Some _ => true | None => false end then Ret tt else makedirs (w ++ ["pyoof_out"]) true) s
     = (Ok tt, upd s (w ++ ["pyoof_out"]) Dir)).
  { destruct Hb as [Hb|Hb]; rewrite Hb.
    - apply run_makedirs_new; assumption.
    - simpl. rewrite upd_id by exact Hb. reflexivity. }
  rewrite E. apply choose_ok; [apply upd_same|]. exists j. split; [apply in_seq; lia|].
  rewrite run_dir_numbered. rewrite upd_other; [exact Hn|].
  intros E2. apply (f_equal (@length _)) in E2. rewrite numbered_length, app_length in E2. simpl in E2. lia.
Qed.

Lemma fresh_ready a d s s1 : wf s -> s d = None -> (forall q, above q d -> s1 q = Some Dir) -> (forall q, ~ above q d -> s1 q = s q) ->
  ready a d 1 s1 [].
Proof.
  intros W Hn Hab Hnab. assert (X : forall r, r <> [] -> s1 (d ++ r) = None).
  { intros r Hr. rewrite Hnab; [apply wf_under; assumption|]. intros [t Et]. eapply is_prefix_app_not; eauto. }
  split; [|split].
  - split; [apply Hab; exists []; rewrite app_nil_r; reflexivity|]. split; [left; apply X; discriminate|].
    intros r Hr _. rewrite X by exact Hr. discriminate.
  - congruence.
  - rewrite andb_false_r. discriminate.
Qed.

Lemma fit_responds orc a s c : wf s -> usable (fit_dir a) s -> free_number a s -> configured a s c -> valid_config c ->
  responsive orc a c -> 0 < tel_pr (fa_tel a) -> three_maps a -> exists s', run (fit_zpoly orc a) s = (Ok tt, s').
Proof.
  intros W Hu Hf Hc Hv Hco Hpr H3. unfold fit_zpoly. cbv zeta. fold (fit_dir a). rewrite run_bind, (load_configured a s c Hc).
  rewrite run_bind. destruct (pick_ok (fit_dir a) (fa_name a) s Hu Hf) as (d & s1 & Ed). rewrite Ed.
  destruct (snr_values_ok orc a H3) as (snrs & ->). cbn [lift bindP].
  apply pick_post in Ed; [|exact W]. destruct Ed as [(j & Hj & Ed & Hn & _ & Hab & Hnab)|(Hall & _)].
  - eapply fit_orders_progress; eauto. eapply fresh_ready; eauto.
  - exfalso. destruct Hf as (j & Hj & Hn). exact (Hall j Hj Hn).
Qed.
Lemma fit_completes orc a s c : wf s -> usable (fit_dir a) s -> free_number a s -> configured a s c -> valid_config c ->
  cooperative orc -> 0 < tel_pr (fa_tel a) -> three_maps a -> exists s', run (fit_zpoly orc a) s = (Ok tt, s').
Proof. intros W Hu Hf Hc Hv Hco. exact (fit_responds orc a s c W Hu Hf Hc Hv (cooperative_responsive orc a c Hco)). Qed.

(** ** The 102nd run *)
Lemma choose_all base name js last s : (forall j, In j js -> s (run_dir base name j) <> None) ->
  run (choose_dir base name js last) s =
  match rev js with [] => match last with Some d => (Ok d, s) | None => (Err UnboundLocalError, s) end | j :: _ => (Ok (run_dir base name j), s) end.
Proof.
  revert last. induction js as [|j t IH]; intros last H; [destruct last; reflexivity|].
  cbn [choose_dir]. cbv zeta. rewrite run_bind, run_call. cbn [exec fst snd].
  destruct (s (run_dir base name j)) eqn:E; [|exfalso; apply (H j); [left; reflexivity|exact E]].
  rewrite IH by (intros; apply H; right; assumption). simpl rev. destruct (rev t); reflexivity.
Qed.
Lemma fit_hundred_and_second orc a s c : wf s -> s (fit_dir a ++ ["pyoof_out"]) = Some Dir ->
  (forall j, (j <= 100)%nat -> s (numbered (fit_dir a) (fa_name a) j) <> None) ->
  inv (numbered (fit_dir a) (fa_name a) 100) s ->
  configured a s c -> valid_config c -> cooperative orc -> 0 < tel_pr (fa_tel a) -> three_maps a -> (1 <= fa_order_max a)%nat ->
  exists s' f, run (fit_zpoly orc a) s = (Ok tt, s') /\ fitted_ok orc a c 1 f /\ ft_init f = cf_init c /\
    s' (numbered (fit_dir a) (fa_name a) 100 ++ ["fitpar_n1.csv"]) = Some (File (Params (zip3 (param_names 1) (ft_sol f) (ft_init f)))).
Proof.
  intros W Hb Hall Hi Hc Hv Hco Hpr H3 HN. unfold fit_zpoly. cbv zeta. fold (fit_dir a). rewrite run_bind, (load_configured a s c Hc).
  rewrite run_bind. set (d := numbered (fit_dir a) (fa_name a) 100) in *.
  assert (Ep : run (pick_dir (fit_dir a) (fa_name a)) s = (Ok d, s)).
  { unfold pick_dir. cbv zeta. rewrite run_bind, run_call. cbn [exec fst snd]. rewrite Hb. cbn [bindP].
    rewrite choose_all by (intros j Hj; apply in_seq in Hj; rewrite run_dir_numbered; apply Hall; lia).
    cbn [seq rev app]. rewrite run_dir_numbered. reflexivity. }
  rewrite Ep. destruct (snr_values_ok orc a H3) as (snrs & ->). cbn [lift bindP].
  assert (Hr : ready a d 1 s []).
  { split; [exact Hi|]. split; [congruence|]. rewrite andb_false_r. discriminate. }
  destruct (fit_orders_progress orc a c snrs d (fa_order_max a) 1 s [] (cooperative_responsive orc a c Hco) Hv Hpr (le_n 1) (le_n _) Hr) as (s' & E).
  exists s'. rewrite E. pose proof Hi as (I1 & I2 & _). apply (fit_orders_post _ _ _ _ _ _ _ []) in E; [|exact I1|exact I2|lia|rewrite andb_false_r; discriminate].
  destruct E as (fl & Hl & Hch & Hs'). exists (nth 0 fl fit0). split; [reflexivity|].
  destruct (chain_nth _ _ _ _ _ _ 0 Hch) as [G1 G2]; [lia|]. split; [exact G1|].
  split; [rewrite G2; unfold start_of; rewrite andb_false_r; apply app_nil_r|]. rewrite Hs'.
  apply (all_writes_lookup d s a snrs 1 fl 0); [lia|discriminate|]. left. reflexivity.
Qed.
