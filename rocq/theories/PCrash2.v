(** The files of a run appear in a fixed order (C90, C91). *)
From Coq Require Import String Ascii List FinFun Lia.
From Verif Require Import PyBase Num MZernike MAperture MRad MCore MFs MOut SOut SOrder SFit PFs PStr PFit PFit2 PFit3 PCrash.
Import ListNotations.
Open Scope R_scope.
Open Scope string_scope.
Open Scope list_scope.
Open Scope prog_scope.

(** [M] may become directories; the files of [L] appear one after the other. *)
Definition inv (M : path -> Prop) (s : fs) (L : list path) (st : fs) : Prop :=
  (forall q, ~ In q L -> s q <> None \/ ~ M q -> st q = s q) /\
  (forall l1 x l2, L = l1 ++ x :: l2 -> st x <> None -> forall y, In y l1 -> complete st y).
Definition seqw (M : path -> Prop) (L : list path) {A} (p : prog A) : Prop :=
  forall s, (forall x, In x L -> s x = None) -> always (inv M s L) p s /\
    forall a s', run p s = (Ok a, s') -> forall x, In x L -> complete s' x.

Lemma complete_same s st y : st y = s y -> complete s y -> complete st y.
Proof. intros E (dc & N & H). exists dc. split; [exact N|]. rewrite E. exact H. Qed.

Lemma split_app {A} (L1 L2 l1 : list A) x l2 : L1 ++ L2 = l1 ++ x :: l2 ->
  (exists l, L1 = l1 ++ x :: l) \/ (exists l, L2 = l ++ x :: l2 /\ l1 = L1 ++ l).
Proof.
  revert l1. induction L1 as [|y L1 IH]; intros l1 E.
  - right. exists l1. split; [exact E|reflexivity].
  - destruct l1 as [|z l1]; cbn in E; injection E as -> E.
    + left. exists L1. reflexivity.
    + destruct (IH l1 E) as [(l & ->)|(l & -> & ->)]; [left|right]; exists l; auto.
Qed.

Lemma seqw_bind {A B} M L1 L2 (p : prog A) (f : A -> prog B) :
  (forall x, In x L1 -> ~ In x L2) -> (forall x, In x (L1 ++ L2) -> ~ M x) ->
  seqw M L1 p -> (forall a, seqw M L2 (f a)) -> seqw M (L1 ++ L2) (bindP p f).
Proof.
  intros HD HM Hp Hf s Hs. destruct (Hp s) as [Ap Rp]. { intros x Hx. apply Hs, in_or_app. auto. }
  assert (S2 : forall a s1, run p s = (Ok a, s1) -> forall x, In x L2 -> s1 x = None).
  { intros a s1 R x Hx. assert (I1 : inv M s L1 s1) by (replace s1 with (snd (run p s)) by (rewrite R; reflexivity); apply always_run, Ap).
    rewrite (proj1 I1); [apply Hs, in_or_app; auto| |right; apply HM, in_or_app; auto]. intros H. exact (HD x H Hx). }
  split.
  - apply always_bind.
    + eapply always_impl; [|exact Ap]. intros st [K O]. split.
      * intros q Hq. apply K. intros H. apply Hq, in_or_app. auto.
      * intros l1 x l2 E Hx y Hy. destruct (split_app _ _ _ _ _ E) as [(l & ->)|(l & -> & ->)]; [exact (O l1 x l eq_refl Hx y Hy)|].
        exfalso. apply Hx. rewrite K; [apply Hs, in_or_app; right; apply in_or_app; right; left; reflexivity| |right; apply HM, in_or_app; right; apply in_or_app; right; left; reflexivity].
        intros H. apply (HD x H), in_or_app. right. left. reflexivity.
    + intros a s1 R. destruct (Hf a s1 (S2 a s1 R)) as [Af _]. pose proof (Rp a s1 R) as C1.
      assert (I1 : inv M s L1 s1) by (replace s1 with (snd (run p s)) by (rewrite R; reflexivity); apply always_run, Ap).
      eapply always_impl; [|exact Af]. intros st [K O].
      assert (KC : forall y, In y L1 -> complete st y).
      { intros y Hy. apply (complete_same s1); [|apply C1, Hy]. apply K; [apply HD, Hy|right; apply HM, in_or_app; auto]. }
      split.
      * intros q Hq Mq. assert (E1 : s1 q = s q) by (apply (proj1 I1); [intros H; apply Hq, in_or_app; auto|exact Mq]).
        rewrite K, E1; [reflexivity|intros H; apply Hq, in_or_app; auto|]. destruct Mq as [Mq|Mq]; [left; rewrite E1; exact Mq|right; exact Mq].
      * intros l1 x l2 E Hx y Hy. destruct (split_app _ _ _ _ _ E) as [(l & ->)|(l & -> & ->)].
        -- apply KC, in_or_app. auto.
        -- apply in_app_or in Hy. destruct Hy as [Hy|Hy]; [apply KC, Hy|]. exact (O l x l2 eq_refl Hx y Hy).
  - intros b s' R. apply run_bind_inv in R. destruct R as (a & s1 & R1 & R2).
    destruct (Hf a s1 (S2 a s1 R1)) as [Af Rf]. intros x Hx. apply in_app_or in Hx. destruct Hx as [Hx|Hx]; [|exact (Rf b s' R2 x Hx)].
    apply (complete_same s1); [|exact (Rp a s1 R1 x Hx)].
    assert (I2 : inv M s1 L2 s') by (replace s' with (snd (run (f a) s1)) by (rewrite R2; reflexivity); apply always_run, Af).
    apply I2; [apply HD, Hx|right; apply HM, in_or_app; auto].
Qed.
Lemma seqw_bind0 {A B} M L (p : prog A) (f : A -> prog B) : (forall x, In x L -> ~ M x) ->
  seqw M [] p -> (forall a, seqw M L (f a)) -> seqw M L (bindP p f).
Proof. intros HM. apply (seqw_bind M [] L); [intros x []|exact HM]. Qed.
Lemma seqw_only {A} (M : path -> Prop) (p : prog A) : only M (fun _ => False) p -> seqw M [] p.
Proof.
  intros H s _. split; [|intros a s' _ x []]. eapply always_impl; [|apply only_always, H]. intros st K. split.
  - intros q _ Mq. apply K; [intros []|exact Mq].
  - intros l1 x l2 E. destruct l1; discriminate E.
Qed.
Lemma seqw_write M p d : d <> Partial -> seqw M [p] (write_file p d).
Proof.
  intros Hd s Hs. specialize (Hs p (or_introl eq_refl)).
  assert (O : forall st : fs, forall l1 x l2, [p] = l1 ++ x :: l2 -> st x <> None -> forall y, In y l1 -> complete st y).
  { intros st l1 x l2 E _ y Hy. destruct l1 as [|z [|]]; [destruct Hy| |]; discriminate E. }
  split.
  - eapply always_impl; [|apply (only_always (fun _ => False) (fun q => q = p)); apply write_file_only; reflexivity].
    intros st K. split; [|apply O]. intros q Hq _. apply K; [|right; auto]. intros ->. apply Hq. left. reflexivity.
  - intros [] s' R x [<-|[]]. apply run_write_ok in R. subst s'. exists d. split; [exact Hd|apply upd_same].
Qed.
Lemma seqw_ret {A} M (a : A) : seqw M [] (Ret a).
Proof. apply seqw_only. exact I. Qed.
Lemma seqw_lift {A} M (r : res A) : seqw M [] (lift r).
Proof. apply seqw_only. apply only_lift. Qed.

Lemma seqw_save M name d l : NoDup (map (fun '(f, _, _) => f) l) -> (forall f, In f (map (fun '(f, _, _) => f) l) -> ~ M (d ++ [f])) ->
  seqw M (map (fun '(f, _, _) => d ++ [f]) l) (save_all name d l).
Proof.
  induction l as [|[[f h] x] t IH]; intros ND HM; [apply seqw_ret|]. cbn [map save_all] in *. inversion ND as [|? ? N1 N2]; subst.
  apply (seqw_bind M [d ++ [f]]).
  - intros q [<-|[]] H. apply in_map_iff in H. destruct H as ([[f' h'] x'] & E & H). apply app_inv_head in E. injection E as ->. apply N1. apply in_map_iff. exists (f, h', x'). auto.
  - intros q [<-|H]; [apply HM; left; reflexivity|]. apply in_map_iff in H. destruct H as ([[f' h'] x'] & <- & H). apply HM. right. apply in_map_iff. exists (f', h', x'). auto.
  - apply seqw_write. discriminate.
  - intros _. apply IH; [exact N2|]. intros g Hg. apply HM. right. exact Hg.
Qed.
Lemma seqw_pdfs M d l : NoDup l -> (forall f, In f l -> ~ M (d ++ [f])) -> seqw M (map (fun f => d ++ [f]) l) (write_pdfs d l).
Proof.
  induction l as [|f t IH]; intros ND HM; [apply seqw_ret|]. cbn [map write_pdfs] in *. inversion ND as [|? ? N1 N2]; subst.
  apply (seqw_bind M [d ++ [f]]).
  - intros q [<-|[]] H. apply in_map_iff in H. destruct H as (f' & E & H). apply app_inv_head in E. injection E as ->. exact (N1 H).
  - intros q [<-|H]; [apply HM; left; reflexivity|]. apply in_map_iff in H. destruct H as (f' & <- & H). apply HM. right. exact H.
  - apply seqw_write. discriminate.
  - intros _. apply IH; [exact N2|]. intros g Hg. apply HM. right. exact Hg.
Qed.

(** ** One order *)
Definition stored_names (n : nat) : list path :=
  [fitpar_name n] :: (if Nat.eqb n 1 then [["pyoof_info.yml"]] else []) ++ map (fun f => [f]) (if Nat.eqb n 1 then csv_names n else skipn 3 (csv_names n)).
Definition drawn_names (n : nat) : list path := map (fun f => ["plots"; f]) (pdf_names n).
Lemma sequence_eq n pl : order_sequence n pl = stored_names n ++ (if pl then drawn_names n else []).
Proof. unfold order_sequence, stored_names, drawn_names, pdf_names, order_figures, csv_names. destruct (Nat.eqb n 1), pl; reflexivity. Qed.
Lemma rel_eq n pl : rel_names n pl = stored_names n ++ (if pl then ["plots"] :: drawn_names n else []).
Proof. unfold rel_names, stored_names. rewrite <- !app_comm_cons, <- !app_assoc. reflexivity. Qed.
Lemma sequence_rel n pl x : In x (order_sequence n pl) -> In x (rel_names n pl) /\ x <> ["plots"].
Proof.
  intros H. split.
  - rewrite rel_eq. rewrite sequence_eq in H. apply in_app_or in H. apply in_or_app. destruct H as [H|H]; [auto|]. right. destruct pl; [right; exact H|exact H].
  - intros ->. unfold order_sequence, order_figures in H. destruct (Nat.eqb n 1), pl; cbn [map app In] in H; str_in H.
Qed.
Lemma not_plot_dirs d x : x <> [] -> x <> ["plots"] -> ~ plot_dirs d (d ++ x).
Proof.
  intros H1 H2 (t & E). rewrite <- app_assoc in E. apply app_inv_head in E. destruct x as [|a [|b x]]; [contradiction| |discriminate E].
  cbn in E. injection E as <- E. apply H2. reflexivity.
Qed.
Lemma sequence_not_dirs d n pl q : In q (map (app d) (order_sequence n pl)) -> ~ plot_dirs d q.
Proof.
  intros H. apply in_map_iff in H. destruct H as (x & <- & H). apply sequence_rel in H. destruct H as [H1 H2]. apply not_plot_dirs; [|exact H2].
  intros ->. exact (rel_not_nil _ _ H1).
Qed.
Lemma sequence_nodup d n pl : NoDup (map (app d) (order_sequence n pl)).
Proof.
  apply Injective_map_NoDup; [intros x y; apply app_inv_head|]. pose proof (rel_names_nodup n pl) as H. rewrite rel_eq in H. rewrite sequence_eq.
  destruct pl; [apply NoDup_remove_1 in H; exact H|exact H].
Qed.

Lemma seqw_plot orc d n : seqw (plot_dirs d) (map (app d) (drawn_names n)) (plot_fit_path orc d n).
Proof.
  assert (HM : forall q, In q (map (app d) (drawn_names n)) -> ~ plot_dirs d q).
  { intros q H. apply (sequence_not_dirs d n true). apply in_map_iff in H. destruct H as (x & <- & H). apply in_map. rewrite sequence_eq. apply in_or_app. right. exact H. }
  unfold plot_fit_path. cbv zeta. apply seqw_bind0; [exact HM|apply seqw_only; cbn; auto|]. intros b. apply seqw_bind0; [exact HM| |].
  { apply seqw_only. destruct b; [exact I|]. eapply only_impl; [| |apply makedirs_only]; [|tauto]. intros q H; exact H. }
  intros _. apply seqw_bind0; [exact HM|apply seqw_only, read_all_only|]. intros _. apply seqw_bind0; [exact HM|apply seqw_lift|]. intros _.
  assert (E : map (app d) (drawn_names n) = map (fun f => (d ++ ["plots"]) ++ [f]) (pdf_names n)).
  { unfold drawn_names. rewrite map_map. apply map_ext. intros f. rewrite <- app_assoc. reflexivity. }
  rewrite E in *. apply seqw_pdfs; [apply pdf_nodup|]. intros f Hf. apply HM. apply in_map_iff. exists f. auto.
Qed.

Lemma nodup_app_l {A} (l1 l2 : list A) : NoDup (l1 ++ l2) -> NoDup l1.
Proof.
  induction l1 as [|x l1 IH]; intros H; [constructor|]. inversion H as [|? ? N1 N2]; subst. constructor; [|apply IH, N2]. intros Hx. apply N1, in_or_app. auto.
Qed.
Lemma seqw_order orc a c snrs d n : seqw (plot_dirs d) (map (app d) (order_sequence n (fa_make_plots a))) (fit_order orc a c snrs d n).
Proof.
  pose proof (sequence_not_dirs d n (fa_make_plots a)) as HM. pose proof (sequence_nodup d n (fa_make_plots a)) as ND.
  set (L := map (app d) (order_sequence n (fa_make_plots a))) in *.
  unfold fit_order. cbv zeta. apply seqw_bind0; [exact HM|apply seqw_only, start_params_only|]. intros init.
  do 11 (apply seqw_bind0; [exact HM|apply seqw_lift|intros ?]).
  set (L2 := if Nat.eqb n 1 then [d ++ ["pyoof_info.yml"]] else []).
  set (L3 := map (fun f => d ++ [f]) (if Nat.eqb n 1 then csv_names n else skipn 3 (csv_names n))).
  set (L4 := if fa_make_plots a then map (app d) (drawn_names n) else []).
  assert (E : L = [d ++ [fitpar_name n]] ++ L2 ++ L3 ++ L4).
  { unfold L. rewrite sequence_eq, map_app. unfold stored_names. cbn [map app]. f_equal. rewrite map_app, map_map, <- app_assoc. f_equal; [unfold L2; destruct (Nat.eqb n 1); reflexivity|].
    f_equal. unfold L4. destruct (fa_make_plots a); reflexivity. }
  clearbody L. subst L. pose proof (nodup_app_r _ _ ND) as ND2. pose proof (nodup_app_r _ _ ND2) as ND3.
  assert (M2 : forall q, In q (L2 ++ L3 ++ L4) -> ~ plot_dirs d q) by (intros q Hq; apply HM, in_or_app; right; exact Hq).
  assert (M3 : forall q, In q (L3 ++ L4) -> ~ plot_dirs d q) by (intros q Hq; apply M2, in_or_app; right; exact Hq).
  apply seqw_bind; [intros x Hx; exact (nodup_app_disjoint _ _ x ND Hx)|exact HM| |].
  { unfold store_data_ascii, make_table. destruct (_ && _).
    - cbn [lift bindP]. apply seqw_write. discriminate.
    - cbn [lift bindP]. intros s Hs. split; [|intros u s' R; discriminate R]. split; [|exact I]. split; [reflexivity|]. intros l1 x l2 El Hx. exfalso. apply Hx, Hs. rewrite El. apply in_or_app. right. left. reflexivity. }
  intros _. apply seqw_bind; [intros x Hx; exact (nodup_app_disjoint _ _ x ND2 Hx)|exact M2| |].
  { unfold L2. destruct (Nat.eqb n 1); [apply seqw_write; discriminate|apply seqw_ret]. }
  intros _. apply seqw_bind; [intros x Hx; exact (nodup_app_disjoint _ _ x ND3 Hx)|exact M3| |].
  { unfold store_data_csv. cbv zeta. match goal with |- seqw _ _ (save_all _ _ ?l) => set (rows := l) end.
    assert (E3 : L3 = map (fun '(f, _, _) => d ++ [f]) rows) by (unfold L3, rows; destruct (Nat.eqb n 1); reflexivity).
    assert (E3' : map (fun '(f, _, _) => f) rows = if Nat.eqb n 1 then csv_names n else skipn 3 (csv_names n)) by (unfold rows; destruct (Nat.eqb n 1); reflexivity).
    rewrite E3. apply seqw_save.
    - rewrite E3'. assert (N3 : NoDup L3) by (exact (nodup_app_l _ _ ND3)). unfold L3 in N3. apply NoDup_map_inv in N3. exact N3.
    - intros f Hf. rewrite E3' in Hf. apply M3, in_or_app. left. unfold L3. apply in_map_iff. exists f. auto. }
  intros _. unfold L4. destruct (fa_make_plots a); [apply seqw_plot|apply seqw_ret].
Qed.

(** ** All orders *)
Lemma sequences_disjoint n m pl pl' x : n <> m -> In x (order_sequence n pl) -> ~ In x (order_sequence m pl').
Proof. intros N H H'. apply sequence_rel in H, H'. destruct H as [H1 H2], H' as [H3 _]. exact (H2 (rel_disjoint n m pl pl' x N H1 H3)). Qed.
Lemma seqw_orders orc a c snrs d l : NoDup l ->
  seqw (plot_dirs d) (map (app d) (flat_map (fun n => order_sequence n (fa_make_plots a)) l)) (fit_orders orc a c snrs d l).
Proof.
  induction l as [|n t IH]; intros ND; [apply seqw_ret|]. cbn [flat_map fit_orders]. rewrite map_app. inversion ND as [|? ? N1 N2]; subst. apply seqw_bind.
  - intros q H H'. apply in_map_iff in H, H'. destruct H as (x & <- & H), H' as (y & E & H'). apply app_inv_head in E. subst y.
    apply in_flat_map in H'. destruct H' as (m & Hm & H'). apply (sequences_disjoint n m (fa_make_plots a) (fa_make_plots a) x); auto. intros ->. exact (N1 Hm).
  - intros q H. rewrite <- map_app in H. apply in_map_iff in H. destruct H as (x & <- & H).
    assert (exists m, In x (order_sequence m (fa_make_plots a))) as (m & Hm). { apply in_app_or in H. destruct H as [H|H]; [eauto|]. apply in_flat_map in H. destruct H as (m & _ & H). eauto. }
    apply (sequence_not_dirs d m (fa_make_plots a)), in_map, Hm.
  - apply seqw_order.
  - intros _. apply IH, N2.
Qed.

(** ** The run *)
Lemma run_seq_below N pl x : In x (run_sequence N pl) -> exists c t, x = c :: t.
Proof.
  intros H. apply in_flat_map in H. destruct H as (m & _ & H). apply sequence_rel in H. destruct x; [|eauto]. exfalso. exact (rel_not_nil _ _ (proj1 H)).
Qed.
Lemma below_not_region w name j c t : ~ dir_region w name (numbered w name j ++ c :: t).
Proof.
  intros (i & _ & (r & E)). apply (f_equal (@length _)) in E. rewrite !app_length in E. cbn in E. pose proof (numbered_length w name i). pose proof (numbered_length w name j). unfold path in *. lia.
Qed.
Lemma app_same_length {A} (a b x y : list A) : length a = length b -> a ++ x = b ++ y -> a = b.
Proof.
  revert b. induction a as [|h a IH]; intros [|h' b] E H; try discriminate E; [reflexivity|]. cbn in *. injection H as -> H. injection E as E. f_equal. exact (IH b E H).
Qed.
Lemma fit_sequence orc a s j : wf s -> free_number a s -> let d := numbered (fit_dir a) (fa_name a) j in s d = None ->
  always (fun st => in_sequence st d (run_sequence (fa_order_max a) (fa_make_plots a))) (fit_zpoly orc a) s.
Proof.
  intros W Hfree d Hd. set (L := run_sequence (fa_order_max a) (fa_make_plots a)).
  assert (Z : forall st : fs, (forall c t, st (d ++ c :: t) = None) -> in_sequence st d L).
  { intros st H l1 x l2 E Hx. exfalso. apply Hx. destruct (run_seq_below (fa_order_max a) (fa_make_plots a) x) as (c & t & ->); [fold L; rewrite E; apply in_or_app; right; left; reflexivity|]. apply H. }
  assert (Z0 : forall c t, s (d ++ c :: t) = None).
  { intros c t. apply wf_under; assumption. }
  unfold fit_zpoly. cbv zeta. fold (fit_dir a). apply always_bind.
  { eapply always_impl; [|apply (only_always (fun _ => False) (fun _ => False)), load_only]. intros st K. apply Z. intros c t. rewrite K; [apply Z0|intros []|right; intros []]. }
  intros c s1 Hc. apply load_state in Hc. subst s1. apply always_bind.
  { eapply always_impl; [|apply only_always, pick_only]. intros st K. apply Z. intros c0 t. rewrite K; [apply Z0|intros []|right; apply below_not_region]. }
  intros d0 s1 Hp.
  assert (Z1 : forall c t, s1 (d ++ c :: t) = None).
  { intros c0 t. replace s1 with (snd (run (pick_dir (fit_dir a) (fa_name a)) s)) by (rewrite Hp; reflexivity). rewrite (only_run _ _ _ _ (pick_only (fit_dir a) (fa_name a))); [apply Z0|intros []|right; apply below_not_region]. }
  apply pick_post in Hp; [|exact W]. destruct Hp as [(i & Hi & E0 & _)|(Hall & _)].
  2:{ exfalso. destruct Hfree as (i & Hi & Hn). exact (Hall i Hi Hn). }
  apply always_bind; [destruct (snr_values orc a); (split; [apply Z, Z1|exact I])|]. intros snrs s2 Hs. rewrite run_lift in Hs. injection Hs as _ <-.
  destruct (Nat.eq_dec i j) as [->|Nij].
  - subst d0. fold d. destruct (seqw_orders orc a c snrs d (seq 1 (fa_order_max a)) (seq_NoDup _ _) s1) as [A _].
    { intros q Hq. apply in_map_iff in Hq. destruct Hq as (x & <- & Hx). destruct (run_seq_below _ _ _ Hx) as (c0 & t & ->). apply Z1. }
    eapply always_impl; [|exact A]. intros st [_ O] l1 x l2 E Hx y Hy.
    apply (O (map (app d) l1) (d ++ x) (map (app d) l2)); [|exact Hx|apply in_map, Hy].
    change (map (app d) L = map (app d) l1 ++ (d ++ x) :: map (app d) l2). rewrite E, map_app. reflexivity.
  - assert (LN : length d = length (numbered (fit_dir a) (fa_name a) i)) by (unfold d; rewrite !numbered_length; reflexivity).
    eapply always_impl; [|apply only_always, fit_orders_only]. intros st K. apply Z. intros c0 t. rewrite K; [apply Z1| |right].
    + intros (c1 & t1 & E). subst d0. apply Nij. symmetry. exact (proj2 (numbered_inj _ _ _ _ _ (app_same_length _ _ _ _ LN E))).
    + intros (t1 & E). subst d0. rewrite <- app_assoc in E. apply Nij. exact (proj2 (numbered_inj _ _ _ _ _ (app_same_length _ _ _ _ (eq_sym LN) E))).
Qed.

(** ** More orders *)
Lemma fit_orders_app orc a c snrs d l1 l2 s : run (fit_orders orc a c snrs d (l1 ++ l2)) s = run (fit_orders orc a c snrs d l1 ;;; fit_orders orc a c snrs d l2) s.
Proof.
  revert s. induction l1 as [|n t IH]; intros s; [reflexivity|]. cbn [app fit_orders]. rewrite bind_assoc, !run_bind. destruct (run (fit_order orc a c snrs d n) s) as [[[]|e] s1]; [apply IH|reflexivity].
Qed.
Lemma orders_same orc a N N' c snrs d l : fit_orders orc (with_orders a N) c snrs d l = fit_orders orc (with_orders a N') c snrs d l.
Proof. induction l as [|n t IH]; [reflexivity|]. cbn [fit_orders]. rewrite IH. reflexivity. Qed.

Lemma more_orders orc a N k s s1 : wf s -> free_number a s -> run (fit_zpoly orc (with_orders a N)) s = (Ok tt, s1) ->
  let s2 := snd (run (fit_zpoly orc (with_orders a (N + k))) s) in
  forall q, s1 q <> None -> s2 q = s1 q.
Proof.
  intros W Hfree H s2 q Hq. unfold fit_zpoly in H. cbv zeta in H. fold (fit_dir (with_orders a N)) in H. change (fit_dir (with_orders a N)) with (fit_dir a) in H.
  cbn [fa_config_file with_orders fa_name fa_order_max] in H.
  apply run_bind_inv in H. destruct H as (c & sx & Hc & H). pose proof (load_state _ _ _ _ Hc). subst sx.
  apply run_bind_inv in H. destruct H as (d & s0 & Hp & H). apply run_lift_inv in H. destruct H as (snrs & Hs & H).
  assert (E2 : s2 = snd (run (fit_orders orc (with_orders a N) c snrs d (seq (1 + N) k)) s1)).
  { unfold s2, fit_zpoly. cbv zeta. fold (fit_dir (with_orders a (N + k))). change (fit_dir (with_orders a (N + k))) with (fit_dir a).
    cbn [fa_config_file with_orders fa_name fa_order_max]. rewrite run_bind, Hc, run_bind, Hp, run_bind, run_lift.
    change (snr_values orc (with_orders a (N + k))) with (snr_values orc (with_orders a N)). rewrite Hs, seq_app, fit_orders_app, !(orders_same orc a (N + k) N), run_bind, H. reflexivity. }
  assert (Z0 : forall c t, s0 (d ++ c :: t) = None).
  { intros c0 t. assert (R : s0 = snd (run (pick_dir (fit_dir a) (fa_name a)) s)) by (rewrite Hp; reflexivity). pose proof Hp as Hp'. apply pick_post in Hp'; [|exact W].
    destruct Hp' as [(i & Hi & E0 & Hn & _)|(Hall & _)]; [|exfalso; destruct Hfree as (i & Hi & Hn); exact (Hall i Hi Hn)].
    rewrite R, (only_run _ _ _ _ (pick_only (fit_dir a) (fa_name a))); [|intros []|right; subst d; apply below_not_region]. apply wf_under; [exact W|exact Hn]. }
  set (b := with_orders a N) in *.
  destruct (seqw_orders orc b c snrs d (seq 1 N) (seq_NoDup _ _) s0) as [A1 _].
  { intros x Hx. apply in_map_iff in Hx. destruct Hx as (y & <- & Hy). destruct (run_seq_below N (fa_make_plots b) y Hy) as (c0 & t & ->). apply Z0. }
  apply always_run in A1. rewrite H in A1. cbn [snd] in A1.
  assert (Z1 : forall x, In x (map (app d) (flat_map (fun n => order_sequence n (fa_make_plots b)) (seq (1 + N) k))) -> s1 x = None).
  { intros x Hx. apply in_map_iff in Hx. destruct Hx as (y & <- & Hy). pose proof Hy as Hy'. apply in_flat_map in Hy'. destruct Hy' as (m & Hm & Hy'). apply in_seq in Hm.
    rewrite (proj1 A1).
    - destruct (run_seq_below (N + k) (fa_make_plots b) y) as (c0 & t & ->); [|apply Z0]. apply in_flat_map. exists m. split; [apply in_seq; lia|exact Hy'].
    - intros X. apply in_map_iff in X. destruct X as (y' & E & X). apply app_inv_head in E. subst y'. apply in_flat_map in X. destruct X as (m' & Hm' & X). apply in_seq in Hm'.
      apply (sequences_disjoint m' m (fa_make_plots b) (fa_make_plots b) y); auto. lia.
    - right. apply (sequence_not_dirs d m (fa_make_plots b)), in_map, Hy'. }
  destruct (seqw_orders orc b c snrs d (seq (1 + N) k) (seq_NoDup _ _) s1 Z1) as [A2 _].
  apply always_run in A2. rewrite E2. apply (proj1 A2); [|left; exact Hq]. intros X. exact (Hq (Z1 _ X)).
Qed.

(** ** The list of files *)
Lemma run_sequence_documented N pl x : In x (run_sequence N pl) <-> In x (documented N pl).
Proof.
  destruct N as [|N]; [reflexivity|]. unfold run_sequence, documented. rewrite in_app_iff. split.
  - intros H. apply in_flat_map in H. destruct H as (m & Hm & H). unfold order_sequence in H. apply in_app_or in H. destruct H as [H|H].
    + left. apply in_map_iff in H. destruct H as (f & <- & H). apply (in_map (fun f => [f])). apply in_or_app.
      destruct H as [<-|H]; [right; apply in_flat_map; exists m; split; [exact Hm|left; reflexivity]|]. apply in_app_or in H. destruct H as [H|H].
      * left. destruct (Nat.eqb m 1); [cbn in *; tauto|destruct H].
      * right. apply in_flat_map. exists m. split; [exact Hm|right; exact H].
    + right. destruct pl; [|destruct H]. apply in_map_iff in H. destruct H as (f & <- & H). apply in_map_iff. exists f. split; [reflexivity|]. apply in_app_or in H. destruct H as [H|H].
      * right. apply in_flat_map. exists m. split; assumption.
      * destruct (Nat.eqb m 1); [left; destruct H as [H|[]]; exact H|destruct H].
  - assert (H1 : In 1%nat (seq 1 (S N))) by (left; reflexivity). intros [H|H].
    + apply in_map_iff in H. destruct H as (f & <- & H). apply in_app_or in H. apply in_flat_map. destruct H as [H|H].
      * exists 1%nat. split; [exact H1|]. apply in_or_app. left. apply (in_map (fun f => [f])). right. cbn in *. tauto.
      * apply in_flat_map in H. destruct H as (m & Hm & H). exists m. split; [exact Hm|]. apply in_or_app. left. apply (in_map (fun f => [f])). destruct H as [<-|H]; [left; reflexivity|]. right. apply in_or_app. right. exact H.
    + destruct pl; [|destruct H]. apply in_map_iff in H. destruct H as (f & <- & H). apply in_flat_map. destruct H as [<-|H].
      * exists 1%nat. split; [exact H1|]. apply in_or_app. right. apply in_map_iff. exists "obsbeam.pdf". split; [reflexivity|]. apply in_or_app. right. left. reflexivity.
      * apply in_flat_map in H. destruct H as (m & Hm & H). exists m. split; [exact Hm|]. apply in_or_app. right. apply in_map_iff. exists f. split; [reflexivity|]. apply in_or_app. left. exact H.
Qed.

(** A file of order m exists only when all files of the lower orders are complete. *)
Lemma lower_complete st d N pl m x : in_sequence st d (run_sequence N pl) -> (1 <= m <= N)%nat -> In x (order_sequence m pl) -> st (d ++ x) <> None ->
  forall y, In y (documented (m - 1) pl) -> complete st (d ++ y).
Proof.
  intros H Hm Hx E y Hy. apply run_sequence_documented in Hy. apply in_split in Hx. destruct Hx as (l1 & l2 & Ex).
  apply (H (run_sequence (m - 1) pl ++ l1) x (l2 ++ flat_map (fun n => order_sequence n pl) (seq (m + 1) (N - m)))); [|exact E|apply in_or_app; left; exact Hy].
  unfold run_sequence. replace (seq 1 N) with (seq 1 (m - 1) ++ m :: seq (m + 1) (N - m)).
  - rewrite flat_map_app. cbn [flat_map]. rewrite Ex, <- !app_assoc. reflexivity.
  - replace N with ((m - 1) + (1 + (N - m)))%nat at 2 by lia. rewrite seq_app. f_equal. replace (1 + (m - 1))%nat with m by lia. replace (m + 1)%nat with (S m) by lia. reflexivity.
Qed.

Lemma sequence_any orc a s j st : wf s -> free_number a s -> s (numbered (fit_dir a) (fa_name a) j) = None ->
  (exists n, st = snd (steps n (fit_zpoly orc a) s)) \/ st = snd (run (fit_zpoly orc a) s) ->
  in_sequence st (numbered (fit_dir a) (fa_name a) j) (run_sequence (fa_order_max a) (fa_make_plots a)).
Proof.
  intros W F Hn H. pose proof (fit_sequence orc a s j W F Hn) as A. destruct H as [(n & ->)| ->]; [apply (proj1 (always_steps _ _ _ n A))|apply (always_run _ _ _ A)].
Qed.
Lemma complete_final orc a s sf n q : wf s -> free_number a s -> run (fit_zpoly orc a) s = (Ok tt, sf) -> s q = None ->
  complete (snd (steps n (fit_zpoly orc a) s)) q -> snd (steps n (fit_zpoly orc a) s) q = sf q.
Proof.
  intros W F R Hs (dc & N & E). destruct (crash_final orc a s sf n q W F R) as [X|[X|X]]; [congruence| |exact X]. exfalso. rewrite E in X. injection X as X. exact (N X).
Qed.
