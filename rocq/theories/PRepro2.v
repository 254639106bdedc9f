(** A fit succeeds wherever its computations succeed. *)
From Coq Require Import String Ascii List ZArith Lia Lra.
From Verif Require Import PyBase PyLib Num MZernike MMath SMath MAperture MRad MCore MFs MOut SOut SFit SRepro PNorm PFs PEnum PFit PFit2 PFit3 PFit5 PFit6 PFit7 PFit9 PScript PRepro.
Import ListNotations.
Open Scope R_scope.
Open Scope string_scope.
Open Scope list_scope.

Lemma fit_order_computed orc a c snrs d n s fx : fitted_ok orc a c n fx -> (fa_make_plots a = true -> or_draw orc n = Ok tt) -> inv d s ->
  (n <> 1%nat -> forall f, In f data_files -> has_file s (d ++ [f])) ->
  run (start_params c (fa_fit_previous a) d n) s = (Ok (ft_init fx), s) ->
  exists s', run (fit_order orc a c snrs d n) s = (Ok tt, s').
Proof.
  intros (A1 & A2 & A3 & A4 & A5 & A6 & (cc & idx & A7 & A8 & A9 & A10) & (xy & A11) & L1 & L2) Hdr Hinv Hdata Hst.
  unfold fit_order. cbv zeta. rewrite run_bind, Hst. rewrite A1, A2, A3, A8. cbn [lift bindP].
  match goal with |- context [or_lsq orc ?F _ _ _] => change F with (objective a c n) end. rewrite A4. cbn [lift bindP]. rewrite A5. cbn [lift bindP]. rewrite A6. cbn [lift bindP]. rewrite A7. cbn [lift bindP]. rewrite A9, A10. cbn [lift bindP]. rewrite A11. cbn [lift bindP]. rewrite run_bind.
  (* writes *)
  unfold store_data_ascii. unfold make_table. rewrite param_names_length, L2, L1, Nat.eqb_refl. cbn [andb lift bindP].
  match goal with |- context [write_file (d ++ [fitpar_name n]) ?dc] => destruct (inv_write d s (fitpar_name n) dc Hinv) as [Ew Hi1]; [discriminate|] end.
  rewrite Ew. clear Ew. rewrite run_bind.
  match goal with |- context [run (if Nat.eqb n 1 then ?P else Ret tt) ?S] =>
    assert (X : exists s2, run (if Nat.eqb n 1 then P else Ret tt) S = (Ok tt, s2) /\ inv d s2 /\
       (n = 1%nat -> has_file s2 (d ++ ["pyoof_info.yml"])) /\ forall q, has_file S q -> has_file s2 q) end.
  { destruct (Nat.eqb n 1) eqn:En.
    - match goal with |- context [write_file (d ++ ["pyoof_info.yml"]) ?dc] => destruct (inv_write d _ "pyoof_info.yml" dc Hi1) as [Ew Hi2]; [discriminate|] end.
      eexists. split; [exact Ew|]. split; [exact Hi2|]. split.
      + intros _. eexists. apply upd_same.
      + intros q [dc Hq]. unfold has_file, upd. destruct (path_eq_dec q (d ++ ["pyoof_info.yml"])); eauto.
    - apply Nat.eqb_neq in En. eexists. split; [reflexivity|]. split; [exact Hi1|]. split; [congruence|auto]. }
  destruct X as (s2 & -> & Hi2 & Hinfo & Hpres).
  match goal with |- context [store_data_csv (fa_name a) d n ?L] => set (data := L) in * end.
  rewrite run_bind.
  destruct (inv_save_all (fa_name a) d (csv_rows n data) s2 Hi2) as (s3 & E9 & Hi3).
  { intros f h x Hin Ef. subst f. apply csv_rows_in in Hin. apply (plots_not_plain n). right. right. exact Hin. }
  assert (E9' : run (store_data_csv (fa_name a) d n data) s2 = (Ok tt, s3)) by exact E9.
  rewrite E9'. apply run_save_all in E9.
  destruct (fa_make_plots a); [|eexists; reflexivity].
  unfold plot_fit_path. cbv zeta. rewrite run_bind, run_call. cbn [exec fst snd]. rewrite run_bind.
  assert (Epl : run (if match s3 (d ++ ["plots"]) with Some _ => true | None => false end then Ret tt else makedirs (d ++ ["plots"]) false) s3
              = (Ok tt, upd s3 (d ++ ["plots"]) Dir)).
  { destruct Hi3 as (I1 & I2 & I3). destruct I2 as [I2|I2]; rewrite I2.
    - apply run_makedirs_new; assumption.
    - simpl. rewrite upd_id by exact I2. reflexivity. }
  rewrite Epl. rewrite run_bind.
  assert (Hfile : forall q, has_file s2 q \/ (exists r, In r (map fst (csv_writes (fa_name a) (csv_rows n data))) /\ q = d ++ r) -> has_file s3 q).
  { intros q Hq. rewrite E9. apply writes_has_file; [|exact Hq].
    intros r nd Hin. unfold csv_writes in Hin. apply in_map_iff in Hin. destruct Hin as ([[f0 h] x] & E & _). inversion E. eauto. }
  assert (Hnm : map fst (csv_writes (fa_name a) (csv_rows n data)) = map (fun f => [f]) (if Nat.eqb n 1 then csv_names n else skipn 3 (csv_names n))).
  { unfold csv_writes, csv_rows, data. rewrite map_map. destruct (Nat.eqb n 1); reflexivity. }
  assert (Hup : forall q, q <> d ++ ["plots"] -> has_file s3 q -> has_file (upd s3 (d ++ ["plots"]) Dir) q).
  { intros q Hq [dc E]. exists dc. rewrite upd_other by exact Hq. exact E. }
  rewrite read_all_ok.
  2:{ intros f Hf. apply Hup.
      { intros E. apply app_inv_head in E. inversion E; subst f. cbn [In] in Hf. unfold fitpar_name in Hf. str_in Hf. }
      apply Hfile. rewrite Hnm. destruct (Nat.eqb n 1) eqn:En.
      - apply Nat.eqb_eq in En. destruct (string_dec f (fitpar_name n)) as [->|F1].
        { left. apply Hpres. eexists. apply upd_same. }
        destruct (string_dec f "pyoof_info.yml") as [->|F2]; [left; auto|].
        right. exists [f]. split; [|reflexivity]. apply in_map_iff. exists f. split; [reflexivity|]. unfold csv_names. cbn [In] in Hf |- *. intuition congruence.
      - apply Nat.eqb_neq in En. destruct (string_dec f (fitpar_name n)) as [->|F1].
        { left. apply Hpres. eexists. apply upd_same. }
        destruct (in_dec string_dec f data_files) as [F2|F2].
        { left. apply Hpres. destruct (Hdata En f F2) as [dc E]. exists dc. rewrite upd_other; [exact E|].
          intros E22. apply app_inv_head in E22. congruence. }
        right. exists [f]. split; [|reflexivity]. apply in_map_iff. exists f. split; [reflexivity|]. unfold csv_names. cbn [In skipn] in Hf |- *. unfold data_files in F2. cbn [In] in F2.
        intuition congruence. }
  rewrite (Hdr eq_refl). cbn [lift bindP].
  apply inv_write_pdfs; [apply inv_upd_plots, Hi3|apply upd_same].
Qed.

Lemma fitted_transfer orc a b c n f : same_setting a b -> recalibrated (fa_beam a) (fa_beam b) -> fitted_ok orc a c n f -> fitted_ok orc b c n f.
Proof.
  intros S R H. assert (Et : fa_tel a = fa_tel b) by apply S. unfold fitted_ok in *. rewrite (objective_same a b c n S R), <- Et. exact H.
Qed.
Lemma fit_orders_computed orc a c snrs d fl n s prev : chain orc a c n prev fl -> (fa_make_plots a = true -> forall m, (n <= m < n + length fl)%nat -> or_draw orc m = Ok tt) ->
  (1 <= n)%nat -> ready a d n s prev -> exists s', run (fit_orders orc a c snrs d (seq n (length fl))) s = (Ok tt, s').
Proof.
  revert n s prev. induction fl as [|f fl IH]; intros n s prev Hc Hdr Hn Hr; [exists s; reflexivity|].
  cbn [length seq fit_orders]. rewrite run_bind. pose proof Hr as (H1 & H2 & H3). destruct Hc as (F1 & F2 & F3). cbn [length] in Hdr.
  destruct (fit_order_computed orc a c snrs d n s f F1) as (s1 & E); [intros M; apply (Hdr M); lia|exact H1|exact H2|rewrite F2; apply start_run, Hr|].
  rewrite E. apply fit_order_post in E; [|apply H1|apply H1]. destruct E as (g & Eg & Hok & Hs1).
  assert (EI : ft_init f = ft_init g). { rewrite (start_run a c d n s prev Hr) in Eg. injection Eg as Eg. congruence. }
  assert (Es : ft_sol g = ft_sol f).
  { apply (fitted_det orc a a c n f g eq_refl eq_refl F1 Hok EI). }
  apply (IH (S n) s1 (ft_sol f)); [exact F3|intros M m Hm; apply (Hdr M); lia|lia|]. rewrite <- Es. eapply ready_next; eauto.
Qed.
Lemma snr_recalibrated orc a b snrs : fa_u a = fa_u b -> fa_v a = fa_v b -> length (fa_beam a) = length (fa_beam b) -> snr_values orc a = Ok snrs -> exists snrs', snr_values orc b = Ok snrs'.
Proof.
  intros Eu Ev L H. unfold snr_values in *. rewrite <- Eu, <- Ev.
  assert (X : forall i r,
    bind (py_get (fa_beam a) i) (fun b => bind (py_get (fa_u a) i) (fun u => bind (py_get (fa_v a) i) (fun v =>
    bind (snr_scatter (or_griddata orc) b u v (4 / 100 * PI / 180) (1 / 100 * PI / 180)) (fun x => Ok (or_round2 orc x))))) = Ok r ->
    exists r', bind (py_get (fa_beam b) i) (fun b => bind (py_get (fa_u a) i) (fun u => bind (py_get (fa_v a) i) (fun v =>
    bind (snr_scatter (or_griddata orc) b u v (4 / 100 * PI / 180) (1 / 100 * PI / 180)) (fun x => Ok (or_round2 orc x))))) = Ok r').
  { intros i r E. unfold py_get in *. destruct (nth_error (fa_beam a) i) as [m|] eqn:Em; [|discriminate].
    destruct (nth_error (fa_beam b) i) as [m'|] eqn:Em'; [|apply nth_error_None in Em'; assert (i < length (fa_beam a))%nat by (apply nth_error_Some; congruence); lia].
    cbn [bind] in *. destruct (nth_error (fa_u a) i) as [u|]; [|discriminate]. destruct (nth_error (fa_v a) i) as [v|]; [|discriminate]. cbn [bind] in *. unfold snr_scatter in *.
    destruct (np_min (map Fin u)); [|discriminate]. destruct (np_max (map Fin u)); [|discriminate]. destruct (np_min (map Fin v)); [|discriminate]. destruct (np_max (map Fin v)); [|discriminate].
    eexists. reflexivity. }
  cbn [mapM] in H |- *. destruct (bind (py_get (fa_beam a) 0) _) as [r0|] eqn:E0 in H; [|discriminate]. destruct (X _ _ E0) as [q0 ->].
  destruct (bind (py_get (fa_beam a) 1) _) as [r1|] eqn:E1 in H; [|discriminate]. destruct (X _ _ E1) as [q1 ->].
  destruct (bind (py_get (fa_beam a) 2) _) as [r2|] eqn:E2 in H; [|discriminate]. destruct (X _ _ E2) as [q2 ->]. eexists. reflexivity.
Qed.

Lemma chain_transfer orc a b c n prev fl m : same_setting a b -> recalibrated (fa_beam a) (fa_beam b) -> chain orc a c n prev fl -> chain orc b c n prev (firstn m fl).
Proof.
  intros ST R. revert n prev fl. induction m as [|m IH]; intros n prev [|f fl] H; cbn [firstn chain] in *; auto. destruct H as (H1 & H2 & H3).
  split; [eapply fitted_transfer; eauto|]. split; [|apply IH, H3]. rewrite H2. unfold start_of. assert (EP : fa_fit_previous a = fa_fit_previous b) by apply ST. rewrite EP. reflexivity.
Qed.
Lemma run_chain orc a s s' c : wf s -> run (fit_zpoly orc a) s = (Ok tt, s') -> free_number a s -> configured a s c ->
  exists snrs fl, snr_values orc a = Ok snrs /\ length fl = fa_order_max a /\ chain orc a c 1 [] fl.
Proof.
  intros W H Hf Hc. unfold fit_zpoly in H. cbv zeta in H. fold (fit_dir a) in H. rewrite run_bind, (load_configured a s c Hc) in H.
  apply run_bind_inv in H. destruct H as (d & s1 & Ed & H). apply run_lift_inv in H. destruct H as (snrs & Es & H).
  apply pick_post in Ed; [|exact W]. destruct Ed as [(j & Hj & Ed & Hn & _ & Hab & Hnab)|(Hall & _)].
  - assert (Hr : ready a d 1 s1 []) by (eapply fresh_ready; eauto). destruct Hr as ((I1 & I2 & I3) & _).
    apply fit_orders_post with (prev := []) in H; auto; [|cbn; rewrite Bool.andb_false_r; discriminate]. destruct H as (fl & L & C & _). exists snrs, fl. auto.
  - exfalso. destruct Hf as (j & Hj & Hn). exact (Hall j Hj Hn).
Qed.
Lemma succeeds_again orc a b s s' t c : wf s -> wf t -> run (fit_zpoly orc a) s = (Ok tt, s') -> free_number a s -> configured a s c ->
  usable (fit_dir b) t -> free_number b t -> configured b t c -> same_setting a b -> recalibrated (fa_beam a) (fa_beam b) ->
  (fa_order_max b <= fa_order_max a)%nat -> (fa_make_plots b = true -> forall n, (1 <= n <= fa_order_max b)%nat -> or_draw orc n = Ok tt) ->
  exists t', run (fit_zpoly orc b) t = (Ok tt, t').
Proof.
  intros Ws Wt H Hf Hc Hu Hfb Hcb ST R L Hdr. destruct (run_chain orc a s s' c Ws H Hf Hc) as (snrs & fl & Es & Lf & C).
  apply (chain_transfer orc a b c 1 [] fl (fa_order_max b) ST R) in C. assert (Lc : length (firstn (fa_order_max b) fl) = fa_order_max b) by (rewrite firstn_length; lia).
  unfold fit_zpoly. cbv zeta. fold (fit_dir b). rewrite run_bind, (load_configured b t c Hcb). rewrite run_bind. destruct (pick_ok (fit_dir b) (fa_name b) t Hu Hfb) as (d & s1 & Ed). rewrite Ed.
  destruct (snr_recalibrated orc a b snrs) as (snrs' & ->); [apply ST|apply ST| |exact Es|].
  { clear - R. induction R; cbn [length]; congruence. }
  cbn [lift bindP]. apply pick_post in Ed; [|exact Wt]. destruct Ed as [(j & Hj & Ed & Hn & _ & Hab & Hnab)|(Hall & _)].
  - rewrite <- Lc. eapply fit_orders_computed; [exact C| |lia|eapply fresh_ready; eauto]. intros M m Hm. apply (Hdr M). lia.
  - exfalso. destruct Hfb as (j & Hj & Hn). exact (Hall j Hj Hn).
Qed.
Lemma results_later n s d name t d' name' s2 : unaltered s s2 -> same_results n s d name t d' name' -> same_results n s2 d name t d' name'.
Proof.
  intros U [(rows & A & B) H]. split.
  - exists rows. split; [|exact B]. unfold fitpar_rows in *. rewrite U; congruence.
  - intros file header I. destruct (H file header I) as (x & X & Y). exists x. split; [|exact Y]. unfold csv_file in *. rewrite U; congruence.
Qed.
Lemma fit_unaltered orc a s s' : wf s -> free_number a s -> run (fit_zpoly orc a) s = (Ok tt, s') -> unaltered s s'.
Proof. intros W F H. pose proof (always_run _ _ _ (fit_always orc a s W F)) as Hu. rewrite H in Hu. exact Hu. Qed.
Lemma fit_tree orc a s s' : wf s -> run (fit_zpoly orc a) s = (Ok tt, s') -> wf s'.
Proof. intros W H. replace s' with (snd (run (fit_zpoly orc a) s)) by (rewrite H; reflexivity). apply run_wf, W. Qed.
Lemma one_after_the_other orc a b s s1 s2 c : wf s -> run (fit_zpoly orc a) s = (Ok tt, s1) -> run (fit_zpoly orc b) s1 = (Ok tt, s2) ->
  free_number a s -> free_number b s1 -> configured a s c -> configured b s1 c -> same_setting a b -> recalibrated (fa_beam a) (fa_beam b) ->
  exists j k, forall n, (1 <= n <= fa_order_max a)%nat -> (n <= fa_order_max b)%nat ->
    numbered (fit_dir a) (fa_name a) j <> numbered (fit_dir b) (fa_name b) k /\
    same_results n s2 (numbered (fit_dir a) (fa_name a) j) (fa_name a) s2 (numbered (fit_dir b) (fa_name b) k) (fa_name b).
Proof.
  intros W H1 H2 F1 F2 C1 C2 ST R. assert (W1 : wf s1) by (eapply fit_tree; eauto). assert (U : unaltered s1 s2) by (eapply fit_unaltered; eauto).
  destruct (repeatable orc a b s s1 s1 s2 c W W1 H1 H2 F1 F2 C1 C2 ST R) as (j & k & _ & _ & _ & Hk & H). exists j, k. intros n Ha Hb. specialize (H n Ha Hb). split.
  - intros E. destruct H as [(rows & A & _) _]. unfold fitpar_rows in A. rewrite E in A. rewrite wf_under in A; [discriminate|exact W1|exact Hk].
  - eapply results_later; eauto.
Qed.
