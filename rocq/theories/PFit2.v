(** The whole of fit_zpoly: directory choice, loop over orders, files. *)
From Coq Require Import String Ascii List FunctionalExtensionality.
From Verif Require Import PyBase Num MZernike MMath MAperture MRad MCore MFs MOut PFs PStr PFit SOut.
Import ListNotations.
Open Scope R_scope.
Open Scope string_scope.
Open Scope list_scope.
Open Scope prog_scope.

(** ** The names one order writes *)
Definition rel_names (n : nat) (pl : bool) : list path :=
  [fitpar_name n] :: (if Nat.eqb n 1 then [["pyoof_info.yml"]] else [])
  ++ map (fun f => [f]) (if Nat.eqb n 1 then csv_names n else skipn 3 (csv_names n))
  ++ (if pl then ["plots"] :: map (fun f => ["plots"; f]) (pdf_names n) else []).

Lemma order_writes_names a snrs n f : map fst (order_writes a snrs n f) = rel_names n (fa_make_plots a).
Proof.
  unfold order_writes, rel_names, csv_rows, csv_writes. cbn [map fst].
  rewrite !map_app. destruct (Nat.eqb n 1), (fa_make_plots a); cbn [map fst]; rewrite ?map_map; try reflexivity;
    unfold plot_writes; cbn [map fst]; rewrite ?map_map; reflexivity.
Qed.

Ltac str_in H := repeat (destruct H as [H|H]; [try discriminate H|]); try (exfalso; exact H).
Lemma num_inj pre suf n m : pre ^^ dec n ^^ suf = pre ^^ dec m ^^ suf -> n = m.
Proof. intros H. apply sapp_inv_head, sapp_inv_tail, dec_inj in H. exact H. Qed.

Lemma rel_names_in n pl q :
  In q (rel_names n pl) <->
  (exists pre, q = [pre ^^ dec n ^^ ".csv"] /\ In pre ["fitpar_n"; "res_n"; "jac_n"; "grad_n"; "phase_n"; "cov_n"; "corr_n"])
  \/ (n = 1%nat /\ exists f, q = [f] /\ In f ["pyoof_info.yml"; "beam_data.csv"; "u_data.csv"; "v_data.csv"])
  \/ (pl = true /\ (q = ["plots"] \/ (exists pre, q = ["plots"; pre ^^ dec n ^^ ".pdf"] /\ In pre ["fitbeam_n"; "fitphase_n"; "residual_n"; "cov_n"; "corr_n"])
                   \/ (n = 1%nat /\ q = ["plots"; "obsbeam.pdf"]))).
Proof.
  unfold rel_names, pdf_names, csv_names, fitpar_name. destruct (Nat.eqb n 1) eqn:En; [apply Nat.eqb_eq in En; subst n | apply Nat.eqb_neq in En].
  - split.
    + intros H. destruct pl; cbn [In app map] in H; str_in H; subst q;
        first [ left; eexists; split; [reflexivity|cbn [In]; tauto]
              | right; left; split; [reflexivity|]; eexists; split; [reflexivity|cbn [In]; tauto]
              | right; right; split; [reflexivity|]; left; reflexivity
              | right; right; split; [reflexivity|]; right; right; split; reflexivity
              | right; right; split; [reflexivity|]; right; left; eexists; split; [reflexivity|cbn [In]; tauto] ].
    + intros [(pre & -> & H)|[(_ & f & -> & H)|(-> & [->|[(pre & -> & H)|(_ & ->)]])]]; try cbn [In] in H; cbn [In app map];
        first [ tauto | str_in H; subst; tauto ].
  - split.
    + intros H. destruct pl; cbn [In app map skipn] in H; str_in H; subst q;
        first [ left; eexists; split; [reflexivity|cbn [In]; tauto]
              | right; right; split; [reflexivity|]; left; reflexivity
              | right; right; split; [reflexivity|]; right; left; eexists; split; [reflexivity|cbn [In]; tauto] ].
    + intros [(pre & -> & H)|[(E & _)|(-> & [->|[(pre & -> & H)|(E & _)]])]]; try contradiction; try cbn [In] in H; cbn [In app map skipn];
        first [ tauto | str_in H; subst; tauto ].
Qed.

Lemma rel_names_nodup n pl : NoDup (rel_names n pl).
Proof.
  unfold rel_names, pdf_names, csv_names, fitpar_name.
  destruct (Nat.eqb n 1), pl; cbn [app map skipn];
    repeat (constructor; [intros H; cbn [In] in H; str_in H|]); constructor.
Qed.

Lemma rel_disjoint n m pl pl' q : n <> m -> In q (rel_names n pl) -> In q (rel_names m pl') -> q = ["plots"].
Proof.
  intros Hnm Hn Hm. apply rel_names_in in Hn. apply rel_names_in in Hm.
  destruct Hn as [(p1 & -> & H1)|[(En & f1 & -> & H1)|(_ & [->|[(p1 & -> & H1)|(En & ->)]])]]; [| |reflexivity| |];
  destruct Hm as [(p2 & E & H2)|[(Em & f2 & E & H2)|(_ & [E|[(p2 & E & H2)|(Em & E)]])]]; try discriminate E; exfalso;
    try (subst; auto; fail); cbn [In] in *.
  - inversion E as [E']. str_in H1; subst p1; str_in H2; subst p2; try discriminate E'; apply Hnm; exact (num_inj _ _ _ _ E').
  - inversion E as [E']. str_in H1; subst p1; str_in H2; subst f2; discriminate E'.
  - inversion E as [E']. str_in H1; subst p1; discriminate E'.
  - inversion E as [E']. str_in H1; subst f1; str_in H2; subst p2; discriminate E'.
  - inversion E as [E']. str_in H1; subst f1; discriminate E'.
  - inversion E as [E']. str_in H1; subst p1; str_in H2; subst p2; try discriminate E'; apply Hnm; exact (num_inj _ _ _ _ E').
  - inversion E as [E']. str_in H1; subst p1; discriminate E'.
  - inversion E as [E']. str_in H2; subst p2; discriminate E'.
Qed.

(** ** Looking up what a list of writes under [d] left *)
Lemma under_names d l : map fst (map (under d) l) = map (app d) (map fst l).
Proof. rewrite !map_map. reflexivity. Qed.
Lemma writes_under_other d s l q : ~ (exists r, In r (map fst l) /\ q = d ++ r) -> apply_writes s (map (under d) l) q = s q.
Proof.
  intros H. apply apply_writes_other. rewrite under_names. intros Hin. apply in_map_iff in Hin.
  destruct Hin as (r & E & Hr). apply H. exists r. auto.
Qed.
Lemma writes_under_in d s l r n : In (r, n) l -> (forall m, In (r, m) l -> m = n) ->
  apply_writes s (map (under d) l) (d ++ r) = Some n.
Proof.
  intros H Hu. apply apply_writes_in.
  - apply in_map_iff. exists (r, n). auto.
  - intros m Hm. apply in_map_iff in Hm. destruct Hm as ([r' m'] & E & Hin). unfold under in E. simpl in E.
    inversion E as [[E1 E2]]. apply app_inv_head in E1. subst. apply Hu. exact Hin.
Qed.
Lemma nodup_fst_unique {A B} (l : list (A * B)) a b c : NoDup (map fst l) -> In (a, b) l -> In (a, c) l -> b = c.
Proof.
  induction l as [|[x y] t IH]; simpl; [tauto|]. intros ND H1 H2. inversion ND as [|? ? Hn Ht]; subst.
  destruct H1 as [E1|H1], H2 as [E2|H2].
  - congruence.
  - inversion E1; subst. exfalso. apply Hn. apply in_map_iff. exists (a, c). auto.
  - inversion E2; subst. exfalso. apply Hn. apply in_map_iff. exists (a, b). auto.
  - auto.
Qed.

(** ** The loop over orders *)
Fixpoint all_writes (a : fit_args) (snrs : list num) (n : nat) (fl : list fitted) : list (path * node) :=
  match fl with [] => [] | f :: t => order_writes a snrs n f ++ all_writes a snrs (S n) t end.

Definition start_of (a : fit_args) (c : config) (n : nat) (prev : list R) : list R :=
  if fa_fit_previous a && negb (Nat.eqb n 1)
  then prev ++ repeat (1 / 10)%R (n_coeff n - n * (n + 1) / 2)
  else cf_init c ++ repeat (1 / 10)%R (n_coeff n - 3).

Fixpoint chain (orc : oracle) (a : fit_args) (c : config) (n : nat) (prev : list R) (fl : list fitted) : Prop :=
  match fl with
  | [] => True
  | f :: t => fitted_ok orc a c n f /\ ft_init f = start_of a c n prev /\ chain orc a c (S n) (ft_sol f) t
  end.

Lemma zip3_fit names sol init : length sol = length names -> length init = length names ->
  map (fun '(_, fit, _) => fit) (zip3 names sol init) = sol.
Proof.
  revert sol init. induction names as [|x t IH]; intros [|y sol] [|z init] H1 H2; simpl in *; try discriminate; auto.
  rewrite IH; auto.
Qed.
Lemma param_names_length n : length (param_names n) = (5 + length (ln_list n))%nat.
Proof. unfold param_names. rewrite app_length, map_length. reflexivity. Qed.

Lemma all_writes_names a snrs n fl q : In q (map fst (all_writes a snrs n fl)) ->
  exists i, (i < length fl)%nat /\ In q (rel_names (n + i) (fa_make_plots a)).
Proof.
  revert n. induction fl as [|f t IH]; intros n H; [destruct H|]. cbn [all_writes] in H.
  rewrite map_app in H. apply in_app_or in H. destruct H as [H|H].
  - rewrite order_writes_names in H. exists O. rewrite Nat.add_0_r. simpl. split; [lia|exact H].
  - apply IH in H. destruct H as (i & Hi & H). exists (S i). simpl. split; [lia|].
    replace (n + S i)%nat with (S n + i)%nat by lia. exact H.
Qed.
Lemma all_writes_names_conv a snrs n fl q i : (i < length fl)%nat -> In q (rel_names (n + i) (fa_make_plots a)) ->
  In q (map fst (all_writes a snrs n fl)).
Proof.
  revert n i. induction fl as [|f t IH]; intros n i Hi H; simpl in Hi; [lia|]. cbn [all_writes].
  rewrite map_app. apply in_or_app. destruct i as [|i].
  - left. rewrite order_writes_names. rewrite Nat.add_0_r in H. exact H.
  - right. apply (IH (S n) i); [lia|]. replace (S n + i)%nat with (n + S i)%nat by lia. exact H.
Qed.

Lemma rel_not_nil n pl : ~ In [] (rel_names n pl).
Proof.
  intros H. apply rel_names_in in H.
  destruct H as [(p & E & _)|[(_ & f & E & _)|(_ & [E|[(p & E & _)|(_ & E)]])]]; discriminate E.
Qed.

Lemma fit_orders_post orc a c snrs d m n prev s s' :
  s d = Some Dir -> s (d ++ ["plots"]) = None \/ s (d ++ ["plots"]) = Some Dir -> (1 <= n)%nat ->
  (fa_fit_previous a && negb (Nat.eqb n 1) = true -> exists rows,
      s (d ++ [fitpar_name (n - 1)]) = Some (File (Params rows)) /\ map (fun '(_, fit, _) => fit) rows = prev) ->
  run (fit_orders orc a c snrs d (seq n m)) s = (Ok tt, s') ->
  exists fl, length fl = m /\ chain orc a c n prev fl /\ s' = apply_writes s (map (under d) (all_writes a snrs n fl)).
Proof.
  revert n prev s. induction m as [|m IH]; intros n prev s Hd Hp Hn1 Hprev H.
  - simpl in H. inversion H. exists []. repeat split.
  - cbn [seq fit_orders] in H. apply run_bind_inv in H. destruct H as ([] & s1 & H1 & H2).
    apply fit_order_post in H1; try assumption. destruct H1 as (f & Hst & Hok & Hs1).
    set (W := order_writes a snrs n f) in *.
    assert (ND : NoDup (map fst W)) by (unfold W; rewrite order_writes_names; apply rel_names_nodup).
    assert (HN : map fst W = rel_names n (fa_make_plots a)) by apply order_writes_names.
    destruct (IH (S n) (ft_sol f) s1) as (fl & Hl & Hch & Hs').
    + rewrite Hs1. rewrite writes_under_other; [exact Hd|]. intros (r & Hr & E).
      assert (r = []) by (destruct r; auto; apply (f_equal (@length _)) in E; rewrite app_length in E; simpl in E; lia).
      subst r. eapply rel_not_nil. rewrite <- HN. exact Hr.
    + rewrite Hs1. destruct (in_dec path_eq_dec ["plots"] (map fst W)) as [Hin|Hin].
      * right. apply in_map_iff in Hin. destruct Hin as ([r nd] & Er & Hin). simpl in Er. subst r.
        assert (nd = Dir) as ->.
        { unfold W, order_writes in Hin. destruct Hin as [E|Hin]; [inversion E|].
          apply in_app_or in Hin. destruct Hin as [Hin|Hin]; [destruct (Nat.eqb n 1); [destruct Hin as [E|[]]; inversion E|destruct Hin]|].
          apply in_app_or in Hin. destruct Hin as [Hin|Hin].
          - exfalso. assert (X : In ["plots"] (map fst (csv_writes (fa_name a) (csv_rows n (order_data a f))))).
            { apply in_map_iff. exists (["plots"], nd). auto. }
            apply csv_writes_in in X. destruct X as (g & E & Hg). inversion E; subst g.
            apply (plots_not_plain n). right. right. exact Hg.
          - destruct (fa_make_plots a); [|destruct Hin]. destruct Hin as [E|Hin]; [inversion E; reflexivity|].
            apply in_map_iff in Hin. destruct Hin as (g & E & _). inversion E. }
        apply writes_under_in; [exact Hin|]. intros k Hk. eapply nodup_fst_unique; eauto.
      * rewrite writes_under_other; [exact Hp|]. intros (r & Hr & E). apply app_inv_head in E. subst r. contradiction.
    + lia.
    + intros _. replace (S n - 1)%nat with n by lia.
      exists (zip3 (param_names n) (ft_sol f) (ft_init f)). split.
      * rewrite Hs1. apply writes_under_in; [left; reflexivity|]. intros k Hk.
        eapply nodup_fst_unique; [exact ND|exact Hk|left; reflexivity].
      * destruct Hok as (_ & _ & _ & _ & _ & _ & _ & _ & L1 & L2).
        apply zip3_fit; rewrite param_names_length; congruence.
    + exact H2.
    + exists (f :: fl). split; [|split; [cbn [chain]; split; [|split]|]].
      * simpl. congruence.
      * exact Hok.
      * clear - Hst Hprev. unfold start_params, start_of in *.
        destruct (fa_fit_previous a && negb (Nat.eqb n 1)).
        -- destruct (Hprev eq_refl) as (rows & E & Er). unfold read_parfit in Hst. rewrite !run_bind, run_callE in Hst.
           cbn [exec] in Hst. rewrite E in Hst. simpl in Hst.
           inversion Hst. rewrite Er. reflexivity.
        -- simpl in Hst. inversion Hst. reflexivity.
      * exact Hch.
      * rewrite Hs', Hs1. cbn [all_writes]. rewrite map_app, apply_writes_app. reflexivity.
Qed.
