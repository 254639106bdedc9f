(** What a run of fit_zpoly cut at any file system call leaves. *)
From Coq Require Import String Ascii List Classical Lia.
From Verif Require Import PyBase Num MZernike MAperture MRad MCore MFs MOut SOut SFit PFs PStr PFit PFit2 PFit3 PFit4 PFit5 PFit6 PFit7 PConc.
Import ListNotations.
Open Scope R_scope.
Open Scope string_scope.
Open Scope list_scope.
Open Scope prog_scope.

(** Programs that write no file only add directories of the final state. *)
Definition dirs_to (s sf s' : fs) : Prop := forall q, s' q = s q \/ (s q = None /\ s' q = Some Dir /\ sf q = Some Dir).
Lemma exec_mkdir_only {X} (o : op X) s q : wr_in (fun _ => False) o -> snd (exec o s) q = s q \/ (s q = None /\ snd (exec o s) q = Some Dir).
Proof.
  intros H. destruct o as [p|p|p|p|p d|p]; simpl in *; auto; try contradiction.
  destruct (s p) eqn:E; simpl; auto. destruct (s (parent p)) as [[|]|]; simpl; auto.
  unfold upd. destruct (path_eq_dec q p) as [->|]; auto.
Qed.
Lemma mkdirs_way {A} M (p : prog A) s : only M (fun _ => False) p -> always (dirs_to s (snd (run p s))) p s.
Proof.
  revert s. induction p as [a|e|X o k IH]; intros s Ho; simpl; [split; [intros q; left; reflexivity|exact I]..|].
  split; [intros q; left; reflexivity|]. destruct Ho as (H1 & H2 & H3). destruct (exec o s) as [x s1] eqn:Ex.
  assert (Hs : forall q, s1 q = s q \/ (s q = None /\ s1 q = Some Dir)).
  { intros q. replace s1 with (snd (exec o s)) by (rewrite Ex; reflexivity). apply exec_mkdir_only, H2. }
  eapply always_impl; [|apply IH, H3]. intros s' H q.
  assert (Hd : s1 q = Some Dir -> snd (run (k x) s1) q = Some Dir) by apply run_dirs.
  destruct (H q) as [E|(E1 & E2 & E3)], (Hs q) as [E'|(E1' & E2')]; try (left; congruence); right.
  - split; [exact E1'|]. split; [congruence|]. apply Hd, E2'.
  - split; [congruence|]. auto.
Qed.

(** Between [s] and [sf], every path is as before, half-written or final. *)
Definition on_way (s sf s' : fs) : Prop := forall q, s' q = s q \/ s' q = Some (File Partial) \/ s' q = sf q.
Definition frozen (s s1 sf : fs) : Prop := forall q, s1 q = s q \/ sf q = s1 q.
Lemma dirs_on_way s sf s' : dirs_to s sf s' -> on_way s sf s'.
Proof. intros H q. destruct (H q) as [E|(_ & E & E')]; [left; exact E|right; right; congruence]. Qed.
Lemma way_bind {A B} (p : prog A) (f : A -> prog B) s a s1 sf : run p s = (Ok a, s1) -> always (on_way s s1) p s ->
  always (on_way s1 sf) (f a) s1 -> frozen s s1 sf -> always (on_way s sf) (bindP p f) s.
Proof.
  intros Hr Hp Hf Hz. apply always_bind.
  - eapply always_impl; [|exact Hp]. intros s' H q. destruct (H q) as [E|[E|E]]; [auto..|]. destruct (Hz q) as [E'|E']; [left|right; right]; congruence.
  - intros a' s' Hr'. rewrite Hr in Hr'. inversion Hr'; subst. eapply always_impl; [|exact Hf]. intros s2 H q.
    destruct (H q) as [E|[E|E]]; [|auto..]. destruct (Hz q) as [E'|E']; [left|right; right]; congruence.
Qed.
Lemma frozen_same s sf : frozen s s sf.
Proof. intros q. left. reflexivity. Qed.
Lemma way_read {A B} (p : prog A) (f : A -> prog B) s a sf : run p s = (Ok a, s) -> only (fun _ => False) (fun _ => False) p ->
  always (on_way s sf) (f a) s -> always (on_way s sf) (bindP p f) s.
Proof.
  intros Hr Ho Hf. eapply way_bind; [exact Hr| |exact Hf|apply frozen_same].
  eapply always_impl; [|apply mkdirs_way with (M := fun _ => False), Ho]. intros s'. rewrite Hr. apply dirs_on_way.
Qed.
Lemma way_lift {A B} (r : res A) (f : A -> prog B) s a sf : r = Ok a -> always (on_way s sf) (f a) s -> always (on_way s sf) (bindP (lift r) f) s.
Proof. intros -> H. exact H. Qed.
Lemma way_write p d s s' : run (write_file p d) s = (Ok tt, s') -> always (on_way s s') (write_file p d) s.
Proof.
  intros H. pose proof (run_write_ok _ _ _ _ H) as E. rewrite run_write_file in H. unfold write_file.
  cbn [bindP callE call always]. split; [intros q; left; reflexivity|].
  assert (P : forall q, (upd s p (File Partial)) q = s q \/ (upd s p (File Partial)) q = Some (File Partial) \/ (upd s p (File Partial)) q = s' q).
  { intros q. unfold upd. destruct (path_eq_dec q p); auto. }
  assert (F : always (on_way s s') (bindP (lift (Ok tt)) (fun _ => Do (Put p d) Ret)) (upd s p (File Partial))).
  { cbn [lift bindP always exec]. split; [exact P|]. rewrite upd_same. split; [|exact I]. intros q. right. right. rewrite E, upd_upd. reflexivity. }
  cbn [exec] in *. destruct (s p) as [[|x]|]; cbn [fst] in *; [discriminate|exact F|].
  destruct (s (parent p)) as [[|x]|]; cbn [fst] in *; [exact F|discriminate|discriminate].
Qed.

(** Writes of distinct names. *)
Lemma frozen_writes s l1 l2 : (forall q, In q (map fst l1) -> In q (map fst l2) -> apply_writes (apply_writes s l1) l2 q = apply_writes s l1 q) ->
  frozen s (apply_writes s l1) (apply_writes (apply_writes s l1) l2).
Proof.
  intros H q. destruct (in_dec path_eq_dec q (map fst l1)) as [H1|H1]; [right|left; apply apply_writes_other, H1].
  destruct (in_dec path_eq_dec q (map fst l2)) as [H2|H2]; [apply H; assumption|apply apply_writes_other, H2].
Qed.
Lemma frozen_upd s p n l : ~ In p (map fst l) -> frozen s (upd s p n) (apply_writes (upd s p n) l).
Proof.
  intros H q. destruct (path_eq_dec q p) as [->|Hq]; [right; apply apply_writes_other, H|left; apply upd_other, Hq].
Qed.

Lemma way_save name d l s s' : NoDup (map (fun '(f, _, _) => f) l) -> run (save_all name d l) s = (Ok tt, s') -> always (on_way s s') (save_all name d l) s.
Proof.
  revert s. induction l as [|[[f h] x] t IH]; intros s ND H; cbn [save_all] in *.
  - simpl in H. inversion H. split; [intros q; left; reflexivity|exact I].
  - apply run_bind_inv in H. destruct H as ([] & s1 & H1 & H2). cbn [map] in ND. inversion ND as [|? ? Hn Ht]; subst.
    eapply way_bind; [exact H1|apply way_write, H1|apply IH; [exact Ht|exact H2]|].
    apply run_write_ok in H1. subst s1. apply run_save_all in H2. subst s'. apply frozen_upd.
    rewrite under_names. intros Hin. apply in_map_iff in Hin. destruct Hin as (r & E & Hr). apply app_inv_head in E. subst r.
    apply Hn. unfold csv_writes in Hr. rewrite map_map in Hr. apply in_map_iff in Hr. destruct Hr as ([[f' h'] x'] & E & Hr).
    apply in_map_iff. exists (f', h', x'). split; [|exact Hr]. cbn [fst] in E. congruence.
Qed.
Lemma way_pdfs d l s s' : NoDup l -> run (write_pdfs d l) s = (Ok tt, s') -> always (on_way s s') (write_pdfs d l) s.
Proof.
  revert s. induction l as [|f t IH]; intros s ND H; cbn [write_pdfs] in *.
  - simpl in H. inversion H. split; [intros q; left; reflexivity|exact I].
  - apply run_bind_inv in H. destruct H as ([] & s1 & H1 & H2). inversion ND as [|? ? Hn Ht]; subst.
    eapply way_bind; [exact H1|apply way_write, H1|apply IH; [exact Ht|exact H2]|].
    apply run_write_ok in H1. subst s1. apply run_write_pdfs in H2. subst s'. apply frozen_upd.
    rewrite map_map. cbn [fst]. intros Hin. apply in_map_iff in Hin. destruct Hin as (g & E & Hg). apply app_inv_head in E. congruence.
Qed.
Lemma read_all_only M W d l : only M W (read_all d l).
Proof. induction l as [|f t IH]; [exact I|]. cbn [read_all]. apply only_bind; [|intros; exact IH]. simpl. repeat split. intros x. apply only_lift. Qed.
Lemma pdf_nodup n : NoDup (pdf_names n).
Proof. unfold pdf_names. destruct (Nat.eqb n 1); cbn [app]; repeat (constructor; [intros H; cbn [In] in H; str_in H|]); constructor. Qed.
Lemma way_plot orc d n s s' : s d = Some Dir -> s (d ++ ["plots"]) = None \/ s (d ++ ["plots"]) = Some Dir ->
  run (plot_fit_path orc d n) s = (Ok tt, s') -> always (on_way s s') (plot_fit_path orc d n) s.
Proof.
  intros Hd Hp H. pose proof (run_plot _ _ _ _ _ Hd Hp H) as Es'. unfold plot_fit_path in *. cbv zeta in *.
  eapply way_read with (a := match s (d ++ ["plots"]) with Some _ => true | None => false end); [reflexivity|simpl; auto|].
  rewrite run_bind, run_call in H. cbn [exec fst snd] in H.
  set (bb := match s (d ++ ["plots"]) with Some _ => true | None => false end) in *.
  assert (E : run (if bb then Ret tt else makedirs (d ++ ["plots"]) false) s = (Ok tt, upd s (d ++ ["plots"]) Dir)).
  { unfold bb. destruct Hp as [Hp|Hp]; rewrite Hp; [apply run_makedirs_new; assumption|]. simpl. rewrite upd_id by exact Hp. reflexivity. }
  rewrite run_bind, E in H.
  eapply way_bind; [exact E| | |].
  - eapply always_impl; [|apply (mkdirs_way (fun q => is_prefix q (d ++ ["plots"])))].
    + intros s2. rewrite E. apply dirs_on_way.
    + destruct bb; [exact I|apply makedirs_only].
  - apply run_bind_inv in H. destruct H as ([] & s1 & H1 & H). assert (s1 = upd s (d ++ ["plots"]) Dir) by (eapply run_read_all; eauto). subst s1.
    eapply way_read; [exact H1|apply read_all_only|].
    apply run_lift_inv in H. destruct H as ([] & E2 & H). rewrite E2. cbn [lift bindP]. apply way_pdfs; [apply pdf_nodup|exact H].
  - rewrite Es'. unfold plot_writes. cbn [map]. unfold under at 1. cbn [apply_writes fst snd]. apply frozen_upd.
    rewrite map_map. rewrite map_map. cbn [fst under]. intros Hin. apply in_map_iff in Hin. destruct Hin as (g & Eg & _). apply app_inv_head in Eg. discriminate Eg.
Qed.

(** One order. *)
Lemma csv_rows_nodup n l : (9 <= length l)%nat -> NoDup (map (fun '(f, _, _) => f) (csv_rows n l)).
Proof.
  intros H. assert (E : map (fun '(f, _, _) => f) (csv_rows n l) = if Nat.eqb n 1 then csv_names n else skipn 3 (csv_names n)).
  { do 9 (destruct l as [|? l]; [cbn in H; lia|]). unfold csv_rows. destruct (Nat.eqb n 1); reflexivity. }
  rewrite E. pose proof (rel_names_nodup n false) as ND. unfold rel_names in ND. inversion ND as [|? ? _ ND']; subst. clear ND. rewrite app_nil_r in ND'.
  assert (ND2 : NoDup (map (fun f : string => [f]) (if Nat.eqb n 1 then csv_names n else skipn 3 (csv_names n)))).
  { destruct (Nat.eqb n 1); [|exact ND']. inversion ND'; assumption. }
  eapply NoDup_map_inv. exact ND2.
Qed.
Lemma frozen_names s l1 l2 s1 sf : s1 = apply_writes s l1 -> sf = apply_writes s1 l2 -> (forall q, In q (map fst l1) -> ~ In q (map fst l2)) -> frozen s s1 sf.
Proof. intros -> -> H. apply frozen_writes. intros q H1 H2. exfalso. exact (H q H1 H2). Qed.
Lemma nodup_app_disjoint {A} (l1 l2 : list A) x : NoDup (l1 ++ l2) -> In x l1 -> ~ In x l2.
Proof.
  induction l1 as [|y t IH]; intros ND H1 H2; [destruct H1|]. cbn [app] in ND. inversion ND as [|? ? Hn Ht]; subst. destruct H1 as [->|H1].
  - apply Hn. apply in_or_app. right. exact H2.
  - exact (IH Ht H1 H2).
Qed.
Lemma nodup_app_r {A} (l1 l2 : list A) : NoDup (l1 ++ l2) -> NoDup l2.
Proof. induction l1 as [|x t IH]; intros ND; [exact ND|]. cbn [app] in ND. inversion ND; auto. Qed.
Lemma under_nodup d l : NoDup (map fst l) -> NoDup (map fst (map (under d) l)).
Proof.
  rewrite under_names. generalize (map fst l) as m. intros m ND. induction ND as [|x m Hn _ IH]; [constructor|]. cbn [map]. constructor; [|exact IH].
  intros Hin. apply in_map_iff in Hin. destruct Hin as (y & E & Hy). apply app_inv_head in E. subst y. contradiction.
Qed.
Lemma start_params_only M W c fp d n : only M W (start_params c fp d n).
Proof.
  unfold start_params. destruct (fp && negb (Nat.eqb n 1)); [|exact I]. apply only_bind; [|intros; exact I]. unfold read_parfit.
  apply only_bind; [simpl; repeat split; intros; apply only_lift|]. intros []; exact I.
Qed.
Lemma way_order orc a c snrs d n s s' :
  s d = Some Dir -> s (d ++ ["plots"]) = None \/ s (d ++ ["plots"]) = Some Dir ->
  run (fit_order orc a c snrs d n) s = (Ok tt, s') -> always (on_way s s') (fit_order orc a c snrs d n) s.
Proof.
  intros Hd Hp H. unfold fit_order in *. cbv zeta in *.
  apply run_bind_inv in H. destruct H as (init & s1 & H1 & H). assert (s1 = s) by (eapply run_start_params_state; eauto). subst s1.
  eapply way_read; [exact H1|apply start_params_only|].
  apply run_lift_inv in H. destruct H as (x0 & E1 & H). apply (way_lift _ _ _ _ _ E1).
  apply run_lift_inv in H. destruct H as (lo & E2 & H). apply (way_lift _ _ _ _ _ E2).
  apply run_lift_inv in H. destruct H as (hi & E3 & H). apply (way_lift _ _ _ _ _ E3).
  apply run_lift_inv in H. destruct H as (out & E4 & H). apply (way_lift _ _ _ _ _ E4).
  apply run_lift_inv in H. destruct H as (sol & E5 & H). apply (way_lift _ _ _ _ _ E5).
  apply run_lift_inv in H. destruct H as (rr & E6 & H). apply (way_lift _ _ _ _ _ E6).
  apply run_lift_inv in H. destruct H as (cc & E7 & H). apply (way_lift _ _ _ _ _ E7).
  apply run_lift_inv in H. destruct H as (idx & E8 & H). apply (way_lift _ _ _ _ _ E8).
  apply run_lift_inv in H. destruct H as (cov & E9 & H). apply (way_lift _ _ _ _ _ E9).
  apply run_lift_inv in H. destruct H as (cor & E10 & H). apply (way_lift _ _ _ _ _ E10).
  apply run_lift_inv in H. destruct H as ([xy phi] & E11 & H). apply (way_lift _ _ _ _ _ E11).
  set (f := {| ft_init := init; ft_x0 := x0; ft_lo := lo; ft_hi := hi; ft_out := out; ft_sol := sol;
               ft_res := rr; ft_cov := cov; ft_cor := cor; ft_phase := phi |}).
  set (l1 := [([fitpar_name n], File (Params (zip3 (param_names n) sol init)))]).
  set (l2 := if Nat.eqb n 1 then [(["pyoof_info.yml"], File (Info (info_of a snrs)))] else []).
  set (l3 := csv_writes (fa_name a) (csv_rows n (order_data a f))).
  set (l4 := if fa_make_plots a then plot_writes n else []).
  assert (ND : NoDup (map fst (map (under d) (l1 ++ l2 ++ l3 ++ l4)))).
  { apply under_nodup. change (l1 ++ l2 ++ l3 ++ l4) with (order_writes a snrs n f). rewrite order_writes_names. apply rel_names_nodup. }
  rewrite !map_app in ND.
  apply run_bind_inv in H. destruct H as ([] & s1 & H2 & H).
  pose proof H2 as H2'. apply run_store_ascii in H2'. destruct H2' as (L1 & L2 & S1). assert (S1' : s1 = apply_writes s (map (under d) l1)) by exact S1.
  apply run_bind_inv in H. destruct H as ([] & s2 & H3 & H).
  assert (S2 : s2 = apply_writes s1 (map (under d) l2)).
  { unfold l2. destruct (Nat.eqb n 1); [apply run_write_ok in H3; exact H3|simpl in H3; inversion H3; reflexivity]. }
  apply run_bind_inv in H. destruct H as ([] & s3 & H4 & H5).
  pose proof H4 as H4'. apply run_store_csv in H4'. assert (S3 : s3 = apply_writes s2 (map (under d) l3)) by exact H4'. clear H4'.
  assert (Hpl : forall q, q = d \/ q = d ++ ["plots"] -> s3 q = s q).
  { intros q Hq. rewrite S3, S2, S1', <- !apply_writes_app, <- !map_app. apply apply_writes_other. rewrite under_names. intros Hin.
    apply in_map_iff in Hin. destruct Hin as (r & Er & Hin).
    assert (Hin' : In r (rel_names n false)).
    { unfold rel_names. rewrite !map_app in Hin. cbn [map] in Hin. unfold l1, l2, l3 in Hin. cbn [map fst app] in Hin. destruct Hin as [<-|Hin]; [left; reflexivity|right].
      apply in_app_or in Hin. apply in_or_app. destruct Hin as [Hin|Hin]; [left; destruct (Nat.eqb n 1); exact Hin|right]. rewrite app_nil_r.
      unfold csv_writes, csv_rows in Hin. destruct (Nat.eqb n 1); exact Hin. }
    destruct Hq as [-> | ->].
    - rewrite <- (app_nil_r d) in Er at 2. apply app_inv_head in Er. subst r. exact (rel_not_nil _ _ Hin').
    - apply app_inv_head in Er. subst r. apply rel_names_in in Hin'. destruct Hin' as [(pre & E & Hpre)|[(_ & g & E & Hg)|(E & _)]]; [| |discriminate E].
      + apply (f_equal (hd "")) in E. cbn [hd] in E. cbn [In] in Hpre. str_in Hpre; subst pre; discriminate E.
      + apply (f_equal (hd "")) in E. cbn [hd] in E. cbn [In] in Hg. str_in Hg; rewrite <- Hg in E; discriminate E. }
  assert (Hp3 : s3 (d ++ ["plots"]) = None \/ s3 (d ++ ["plots"]) = Some Dir) by (rewrite Hpl; auto).
  assert (Hd3 : s3 d = Some Dir) by (rewrite Hpl; auto).
  assert (S4 : s' = apply_writes s3 (map (under d) l4)).
  { unfold l4. destruct (fa_make_plots a); [eapply run_plot; eauto|]. simpl in H5. inversion H5. reflexivity. }
  eapply way_bind; [exact H2| | |].
  { unfold store_data_ascii in *. apply run_lift_inv in H2. destruct H2 as (tab & T1 & T2). rewrite T1. cbn [lift bindP]. apply way_write, T2. }
  2:{ eapply frozen_names; [exact S1'| |].
      - rewrite S4, S3, S2, <- !apply_writes_app. reflexivity.
      - intros q Hq. rewrite !map_app. apply (nodup_app_disjoint _ _ _ ND Hq). }
  assert (ND2 : NoDup (map fst (map (under d) l2) ++ map fst (map (under d) l3) ++ map fst (map (under d) l4))) by (apply nodup_app_r in ND; exact ND).
  eapply way_bind; [exact H3| | |].
  { destruct (Nat.eqb n 1); [apply way_write, H3|]. simpl in H3. inversion H3. split; [intros q; left; reflexivity|exact I]. }
  2:{ eapply frozen_names; [exact S2| |].
      - rewrite S4, S3, <- !apply_writes_app. reflexivity.
      - intros q Hq. rewrite !map_app. apply (nodup_app_disjoint _ _ _ ND2 Hq). }
  apply nodup_app_r in ND2.
  eapply way_bind; [exact H4| | |].
  { unfold store_data_csv in *. cbv zeta in *. apply (way_save _ _ (csv_rows n (order_data a f))); [apply csv_rows_nodup; cbn; lia|exact H4]. }
  2:{ eapply frozen_names; [exact S3|exact S4|]. intros q Hq. apply (nodup_app_disjoint _ _ _ ND2 Hq). }
  destruct (fa_make_plots a); [apply way_plot; assumption|]. simpl in H5. inversion H5. split; [intros q; left; reflexivity|exact I].
Qed.

(** All orders. *)
Lemma order_keeps orc a c snrs d n s s1 : s d = Some Dir -> s (d ++ ["plots"]) = None \/ s (d ++ ["plots"]) = Some Dir ->
  run (fit_order orc a c snrs d n) s = (Ok tt, s1) ->
  s1 d = Some Dir /\ (s1 (d ++ ["plots"]) = None \/ s1 (d ++ ["plots"]) = Some Dir) /\
  (forall q, s1 q = s q \/ exists r, In r (rel_names n (fa_make_plots a)) /\ q = d ++ r).
Proof.
  intros Hd Hp H. split; [|split].
  - replace s1 with (snd (run (fit_order orc a c snrs d n) s)) by (rewrite H; reflexivity). apply run_dirs, Hd.
  - apply fit_order_post in H; try assumption. destruct H as (f & _ & _ & ->).
    destruct (in_dec path_eq_dec ["plots"] (map fst (order_writes a snrs n f))) as [Hin|Hin].
    + right. apply in_map_iff in Hin. destruct Hin as ([r nd] & Er & Hin). simpl in Er. subst r.
      rewrite (order_lookup d s a snrs n f ["plots"] nd Hin). apply order_writes_node in Hin. destruct Hin as [[_ ->]|[N _]]; [reflexivity|congruence].
    + rewrite writes_under_other; [exact Hp|]. intros (r & Hr & E). apply app_inv_head in E. subst r. contradiction.
  - apply fit_order_post in H; try assumption. destruct H as (f & _ & _ & ->). intros q.
    destruct (in_dec path_eq_dec q (map fst (map (under d) (order_writes a snrs n f)))) as [Hin|Hin].
    + right. rewrite under_names in Hin. apply in_map_iff in Hin. destruct Hin as (r & <- & Hr). rewrite order_writes_names in Hr. exists r. auto.
    + left. apply apply_writes_other, Hin.
Qed.
Lemma way_orders orc a c snrs d m n s s' :
  s d = Some Dir -> s (d ++ ["plots"]) = None \/ s (d ++ ["plots"]) = Some Dir ->
  run (fit_orders orc a c snrs d (seq n m)) s = (Ok tt, s') ->
  always (on_way s s') (fit_orders orc a c snrs d (seq n m)) s /\
  (forall q, s' q = s q \/ exists i r, (n <= i)%nat /\ In r (rel_names i (fa_make_plots a)) /\ q = d ++ r).
Proof.
  revert n s. induction m as [|m IH]; intros n s Hd Hp H; cbn [seq fit_orders] in *.
  - simpl in H. inversion H. split; [split; [intros q; left; reflexivity|exact I]|]. intros q. left. reflexivity.
  - apply run_bind_inv in H. destruct H as ([] & s1 & H1 & H2).
    destruct (order_keeps orc a c snrs d n s s1 Hd Hp H1) as (Hd1 & Hp1 & K).
    destruct (IH (S n) s1 Hd1 Hp1 H2) as (W & K2). split.
    + eapply way_bind; [exact H1|apply way_order; assumption|exact W|]. intros q.
      destruct (K q) as [E|(r & Hr & ->)]; [left; exact E|]. destruct (K2 (d ++ r)) as [E|(i & r' & Hi & Hr' & E)]; [right; exact E|].
      apply app_inv_head in E. subst r'. assert (r = ["plots"]) as -> by (eapply (rel_disjoint n i); [lia|exact Hr|exact Hr']).
      destruct Hp1 as [Hp1|Hp1].
      * left. rewrite Hp1. symmetry. destruct Hp as [Hp|Hp]; [exact Hp|]. exfalso.
        assert (X : s1 (d ++ ["plots"]) = Some Dir); [|congruence].
        replace s1 with (snd (run (fit_order orc a c snrs d n) s)) by (rewrite H1; reflexivity). apply run_dirs, Hp.
      * right. rewrite Hp1. replace s' with (snd (run (fit_orders orc a c snrs d (seq (S n) m)) s1)) by (rewrite H2; reflexivity). apply run_dirs, Hp1.
    + intros q. destruct (K2 q) as [E|(i & r & Hi & Hr & ->)].
      * destruct (K q) as [E'|(r & Hr & ->)]; [left; congruence|]. right. exists n, r. auto.
      * right. exists i, r. split; [lia|]. auto.
Qed.

Lemma crash_final orc a s sf n q : wf s -> free_number a s -> run (fit_zpoly orc a) s = (Ok tt, sf) ->
  let s' := snd (steps n (fit_zpoly orc a) s) in s' q = s q \/ s' q = Some (File Partial) \/ s' q = sf q.
Proof.
  intros Hwf Hfree H. cbv zeta. revert q. change (on_way s sf (snd (steps n (fit_zpoly orc a) s))).
  apply (always_steps (on_way s sf)). unfold fit_zpoly in *. cbv zeta in *. fold (fit_dir a) in *.
  apply run_bind_inv in H. destruct H as (c & s1 & H1 & H). assert (s1 = s) by (eapply load_state; eauto). subst s1.
  eapply way_read; [exact H1|apply load_only|].
  apply run_bind_inv in H. destruct H as (d & s1 & H2 & H). apply run_lift_inv in H. destruct H as (snrs & E & H).
  pose proof (pick_post _ _ _ _ _ Hwf H2) as Pd. destruct Pd as [(j & Hj & Ed & Hn & Hfirst & Hab & Hout)|(Hall & _)].
  2:{ exfalso. destruct Hfree as (j & Hj & Hn). exact (Hall j Hj Hn). }
  assert (Hd1 : s1 d = Some Dir) by (apply Hab; exists []; rewrite app_nil_r; reflexivity).
  assert (Hp1 : s1 (d ++ ["plots"]) = None \/ s1 (d ++ ["plots"]) = Some Dir).
  { left. rewrite Hout; [|intros [t Et]; revert Et; apply is_prefix_app_not; discriminate].
    destruct (s (d ++ ["plots"])) eqn:Es; [|reflexivity]. exfalso. destruct Hwf as [_ Hw]. assert (s d = Some Dir) by (apply (Hw d "plots"); congruence). congruence. }
  destruct (way_orders orc a c snrs d (fa_order_max a) 1 s1 sf Hd1 Hp1 H) as (W & K).
  eapply way_bind; [exact H2| | |].
  - eapply always_impl; [|eapply mkdirs_way, pick_only]. intros s2. rewrite H2. apply dirs_on_way.
  - rewrite E. exact W.
  - intros q. destruct (K q) as [Eq|(i & r & Hi & Hr & ->)]; [right; exact Eq|]. left. apply Hout. intros [t Et].
    revert Et. apply is_prefix_app_not. intros ->. exact (rel_not_nil _ _ Hr).
Qed.

(** Everything a run creates, up to any point, lies in one new directory. *)
Lemma crash_confined orc a s : wf s -> usable (fit_dir a) s -> free_number a s ->
  exists j, (j <= 100)%nat /\ let d := numbered (fit_dir a) (fa_name a) j in
    s d = None /\ (forall i, (i < j)%nat -> s (numbered (fit_dir a) (fa_name a) i) <> None) /\
    forall n q, snd (steps n (fit_zpoly orc a) s) q <> s q -> s q = None /\ (above q d \/ below d q).
Proof.
  intros Hwf Hu Hfree. destruct (pick_ok (fit_dir a) (fa_name a) s Hu Hfree) as (d & s1 & H2).
  pose proof (pick_post _ _ _ _ _ Hwf H2) as Pd. destruct Pd as [(j & Hj & Ed & Hn & Hfirst & Hab & Hout)|(Hall & _)].
  2:{ exfalso. destruct Hfree as (j & Hj & Hn). exact (Hall j Hj Hn). }
  exists j. split; [exact Hj|]. cbv zeta. rewrite <- Ed. split; [exact Hn|]. split; [exact Hfirst|].
  set (I := fun s' : fs => forall q, s' q <> s q -> s q = None /\ (above q d \/ below d q)). intros n. change (I (snd (steps n (fit_zpoly orc a) s))).
  apply (always_steps I). unfold fit_zpoly. cbv zeta. fold (fit_dir a).
  assert (I0 : I s) by (intros q Hq; congruence).
  apply always_bind.
  { eapply always_impl; [|apply (mkdirs_way (fun _ => False)), load_only]. intros s' H q Hq. destruct (H q) as [E|(E1 & E2 & E3)]; [congruence|].
    destruct (fa_config_file a) as [p|]; cbn in E3; [|congruence]. destruct (s p) as [[|[]]|]; cbn in E3; congruence. }
  intros c s' Hc. apply load_state in Hc. subst s'. apply always_bind.
  { eapply always_impl; [|eapply mkdirs_way, pick_only]. intros s' H q Hq. destruct (H q) as [E|(E1 & E2 & E3)]; [congruence|]. split; [exact E1|]. left.
    rewrite H2 in E3. cbn [snd] in E3. apply NNPP. intros Hna. rewrite Hout in E3 by exact Hna. congruence. }
  intros d' s1' H2'. rewrite H2 in H2'. assert (d' = d) by congruence. assert (s1' = s1) by congruence. subst d' s1'. clear H2'.
  assert (I1 : I s1).
  { intros q Hq. destruct (classic (above q d)) as [Ha|Hna]; [|rewrite Hout in Hq by exact Hna; congruence]. split; [|left; exact Ha].
    destruct (s q) eqn:Es; [|reflexivity]. exfalso. apply Hq.
    pose proof (only_run _ _ _ s (pick_only (fit_dir a) (fa_name a)) q (fun x => x)) as K. rewrite H2 in K. cbn [snd] in K. rewrite Es in K. apply K. left. discriminate. }
  apply always_bind; [destruct (snr_values orc a); split; auto|].
  intros snrs s2 Hsnr. rewrite run_lift in Hsnr. inversion Hsnr; subst s2. clear Hsnr.
  eapply always_impl; [|apply only_always, fit_orders_only]. intros s3 Hk q Hq.
  destruct (classic (below d q)) as [Hb|Hnb].
  { split; [|right; exact Hb]. destruct Hb as [t ->]. destruct t as [|x t]; [rewrite app_nil_r; exact Hn|].
    destruct (s (d ++ x :: t)) eqn:Es; [|reflexivity]. exfalso. assert (Hd : s d = Some Dir); [|congruence].
    apply (above_dirs s (removelast (d ++ x :: t)) Hwf); [|exists (removelast (x :: t)); apply removelast_app; discriminate].
    destruct (exists_last (l := d ++ x :: t) ltac:(destruct d; discriminate)) as (p & y & Ep). rewrite Ep in *. rewrite removelast_last. destruct Hwf as [_ Hw]. apply (Hw p y). congruence. }
  apply I1. rewrite <- (Hk q); [exact Hq|intros (x & t & ->); apply Hnb; exists (x :: t); reflexivity|].
  destruct (s1 q) eqn:Es1; [left; discriminate|]. right. intros [t Et].
  destruct (prefixes_compare q d (d ++ ["plots"])) as [Ha|Hb]; [exists t; exact Et|exists ["plots"]; reflexivity| |].
  - rewrite Hab in Es1 by exact Ha. discriminate.
  - apply Hnb. exact Hb.
Qed.

Lemma after_crash orc orc' a b s n s1 s2 : wf s -> free_number a s -> s1 = snd (steps n (fit_zpoly orc a) s) ->
  free_number b s1 -> run (fit_zpoly orc' b) s1 = (Ok tt, s2) ->
  unaltered s s1 /\ unaltered s1 s2 /\
  exists j, (j <= 100)%nat /\ s1 (numbered (fit_dir b) (fa_name b) j) = None /\ s2 (numbered (fit_dir b) (fa_name b) j) = Some Dir.
Proof.
  intros Hwf Hf -> Hf2 H. assert (W1 : wf (snd (steps n (fit_zpoly orc a) s))) by (apply steps_wf, Hwf).
  split; [apply (always_steps (unaltered s)), fit_always; assumption|]. split.
  - replace s2 with (snd (run (fit_zpoly orc' b) (snd (steps n (fit_zpoly orc a) s)))) by (rewrite H; reflexivity). apply always_run, fit_always; assumption.
  - destruct (fit_files orc' b _ s2 W1 H Hf2) as (j & Hj & H1 & _ & _ & H2 & _). exists j. split; [exact Hj|]. split; [exact H1|]. apply H2. exists []. rewrite app_nil_r. reflexivity.
Qed.
Lemma successive orc orc' a b s s1 s2 : wf s -> free_number a s -> run (fit_zpoly orc a) s = (Ok tt, s1) ->
  fit_dir b = fit_dir a -> fa_name b = fa_name a -> free_number b s1 -> run (fit_zpoly orc' b) s1 = (Ok tt, s2) ->
  exists j k, (j < k <= 100)%nat /\
    s (numbered (fit_dir a) (fa_name a) j) = None /\ s1 (numbered (fit_dir a) (fa_name a) j) = Some Dir /\
    s1 (numbered (fit_dir a) (fa_name a) k) = None /\ s2 (numbered (fit_dir a) (fa_name a) k) = Some Dir /\
    (forall i, (i < j)%nat -> s (numbered (fit_dir a) (fa_name a) i) <> None) /\
    (forall i, (i < k)%nat -> s1 (numbered (fit_dir a) (fa_name a) i) <> None).
Proof.
  intros Hwf Hf H Ed En Hf2 H2. assert (W1 : wf s1) by (replace s1 with (snd (run (fit_zpoly orc a) s)) by (rewrite H; reflexivity); apply run_wf, Hwf).
  destruct (fit_files orc a s s1 Hwf H Hf) as (j & Hj & J1 & J2 & _ & J3 & _ & J4).
  destruct (fit_files orc' b s1 s2 W1 H2 Hf2) as (k & Hk & K1 & K2 & _ & K3 & _). rewrite Ed, En in *.
  assert (X : forall d : path, above d d) by (intros d; exists []; rewrite app_nil_r; reflexivity).
  exists j, k. assert (Hjk : (j < k)%nat).
  { destruct (Nat.lt_trichotomy j k) as [L|[L|L]]; [exact L| |]; exfalso.
    - subst k. rewrite J3 in K1 by apply X. discriminate.
    - assert (U : unaltered s s1) by (replace s1 with (snd (run (fit_zpoly orc a) s)) by (rewrite H; reflexivity); apply always_run, fit_always; assumption).
      apply (J2 k L). rewrite <- (U _ (J2 k L)). exact K1. }
  split; [lia|]. split; [exact J1|]. split; [apply J3, X|]. split; [exact K1|]. split; [apply K3, X|]. split; [exact J2|exact K2].
Qed.
