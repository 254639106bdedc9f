(** A run with more orders passes through the final state of the run with fewer. *)
From Coq Require Import String Ascii List Lia Arith.
From Verif Require Import PyBase PyLib PStr Num MZernike MMath MAperture MRad MCore MFs MOut MTab SOut SFit SOrder STab PFs PFit PFit3 PFit4 PCrash PCrash2 PTab PScript SPool PPool PPool2 MScript PDemo PLook.
Import ListNotations.
Open Scope R_scope.
Open Scope string_scope.
Open Scope list_scope.
Open Scope prog_scope.

Definition passes {A} (p : prog A) (s s' : fs) : Prop := exists k, snd (steps k p s) = s'.
Lemma passes_bind {A B} (p : prog A) (f : A -> prog B) s a s1 s2 : run p s = (Ok a, s1) -> passes (f a) s1 s2 -> passes (bindP p f) s s2.
Proof.
  revert s. induction p as [b|e|X o k IH]; intros s H [m Hm].
  - injection H as -> ->. exists m. exact Hm.
  - discriminate H.
  - cbn [run] in H. destruct (exec o s) as [x s'] eqn:E. destruct (IH x s' H (ex_intro _ m Hm)) as [j Hj]. exists (S j). cbn [bindP steps]. rewrite E. exact Hj.
Qed.
Lemma passes_here {A} (p : prog A) s : passes p s s.
Proof. exists 0%nat. destruct p; reflexivity. Qed.
Lemma orders_pass orc a c snrs d l l' s s1 : run (fit_orders orc a c snrs d l) s = (Ok tt, s1) -> passes (fit_orders orc a c snrs d (l ++ l')) s s1.
Proof.
  revert s. induction l as [|n t IH]; intros s H.
  - injection H as ->. apply passes_here.
  - cbn [app fit_orders] in *. rewrite run_bind in H. destruct (run (fit_order orc a c snrs d n) s) as [[[]|e] s0] eqn:E; [|discriminate H].
    eapply passes_bind; [exact E|]. apply IH, H.
Qed.
Lemma fit_passes orc a N m s s1 : run (fit_zpoly orc (with_orders a N)) s = (Ok tt, s1) -> passes (fit_zpoly orc (with_orders a (N + m))) s s1.
Proof.
  unfold fit_zpoly. cbv zeta. cbn [fa_config_file with_orders fa_name fa_order_max fa_work_dir fa_pthto]. intros H.
  apply run_bind_inv in H. destruct H as (c & sx & Hc & H). eapply passes_bind; [exact Hc|].
  apply run_bind_inv in H. destruct H as (d & s0 & Hp & H). eapply passes_bind; [exact Hp|].
  apply run_lift_inv in H. destruct H as (snrs & Hs & H). change (snr_values orc (with_orders a (N + m))) with (snr_values orc (with_orders a N)). rewrite Hs. cbn [lift bindP].
  rewrite seq_app, (orders_same orc a (N + m) N). apply orders_pass, H.
Qed.


Lemma with_same a : with_orders a (fa_order_max a) = a.
Proof. destruct a. reflexivity. Qed.
Lemma orders_prefix orc a c snrs d l l' s sf : run (fit_orders orc a c snrs d (l ++ l')) s = (Ok tt, sf) -> exists s1, run (fit_orders orc a c snrs d l) s = (Ok tt, s1).
Proof.
  revert s. induction l as [|n t IH]; intros s H; [exists s; reflexivity|].
  cbn [app fit_orders] in *. rewrite run_bind in H |- *. destruct (run (fit_order orc a c snrs d n) s) as [[[]|e] s0] eqn:E; [|discriminate H]. apply (IH s0 H).
Qed.
Lemma fit_prefix orc a N m s sf : run (fit_zpoly orc (with_orders a (N + m))) s = (Ok tt, sf) -> exists s1, run (fit_zpoly orc (with_orders a N)) s = (Ok tt, s1).
Proof.
  unfold fit_zpoly. cbv zeta. cbn [fa_config_file with_orders fa_name fa_order_max fa_work_dir fa_pthto]. intros H.
  apply run_bind_inv in H. destruct H as (c & sx & Hc & H). rewrite run_bind, Hc.
  apply run_bind_inv in H. destruct H as (d & s0 & Hp & H). rewrite run_bind, Hp.
  apply run_lift_inv in H. destruct H as (snrs & Hs & H). change (snr_values orc (with_orders a (N + m))) with (snr_values orc (with_orders a N)) in Hs. rewrite Hs. cbn [lift bindP].
  rewrite seq_app, (orders_same orc a (N + m) N) in H. exact (orders_prefix _ _ _ _ _ _ _ _ _ H).
Qed.
Lemma fit_pauses orc a N s sf : run (fit_zpoly orc a) s = (Ok tt, sf) -> (N <= fa_order_max a)%nat ->
  exists k s1, snd (steps k (fit_zpoly orc a) s) = s1 /\ run (fit_zpoly orc (with_orders a N)) s = (Ok tt, s1).
Proof.
  intros R L. assert (E : a = with_orders a (N + (fa_order_max a - N))) by (rewrite <- (with_same a) at 1; f_equal; lia).
  rewrite E in R. destruct (fit_prefix _ _ _ _ _ _ R) as [s1 H1]. destruct (fit_passes orc a N (fa_order_max a - N) s s1 H1) as [k Hk]. exists k, s1.
  rewrite <- E in Hk. split; assumption.
Qed.
Lemma phase_late n N plots : (1 <= N)%nat -> (N < n)%nat -> forall f, In f (documented N plots) -> f <> ["phase_n" ^^ dec n ^^ ".csv"].
Proof.
  intros N1 L f Hf ->. destruct N as [|N]; [lia|]. unfold documented in Hf. apply in_app_or in Hf as [Hf|Hf].
  - apply in_map_iff in Hf as (g & E & Hf). assert (g = "phase_n" ^^ dec n ^^ ".csv") by congruence. subst g. clear E. apply in_app_or in Hf as [Hf|Hf].
    + cbn in Hf. decompose [or] Hf; try discriminate; contradiction.
    + apply in_flat_map in Hf as (m & Hm & Hf). apply in_seq in Hm. apply in_map_iff in Hf as (stem & E & Hf).
      assert (stem = "phase") as ->.
      { cbn [In] in Hf. repeat match goal with H : _ \/ _ |- _ => destruct H as [H|H] end; subst; try contradiction; try reflexivity; cbn in E; discriminate E. }
      apply (sapp_inv_head "phase_n") in E. apply sapp_inv_tail, dec_inj in E. lia.
  - destruct plots; [|destruct Hf]. apply in_map_iff in Hf as (g & E & _). discriminate E.
Qed.

(** A moment of a fit at which the first N orders are there and the others are not. *)
Lemma early_orders isot orc a s sf c N : file_tree s -> free_number a s -> run (fit_zpoly orc a) s = (Ok tt, sf) -> configured a s c -> isot (fa_date a) = true ->
  (1 <= N <= fa_order_max a)%nat ->
  exists k j, (j <= 100)%nat /\ s (numbered (fit_dir a) (fa_name a) j) = None /\
    let d := numbered (fit_dir a) (fa_name a) j in let st := snd (steps k (fit_zpoly orc a) s) in
    (forall n, (1 <= n <= N)%nat -> exists r, fst (run (table_pyoof_out isot [d] n) st) = Ok (n, [r]) /\ fst (run (table_pyoof_out isot [d] n) sf) = Ok (n, [r])) /\
    forall n, (N < n)%nat -> fst (run (table_pyoof_out isot [d] n) st) = Err FileNotFoundError.
Proof.
  intros W F R Hc I L. destruct (fit_pauses orc a N s sf R) as (k & s1 & Hk & R1); [lia|]. exists k. cbv zeta.
  destruct (fit_files orc (with_orders a N) s s1 W R1 F) as (j & J & D & Lt & Fi & _ & _ & Fr). exists j.
  change (fit_dir (with_orders a N)) with (fit_dir a) in *. cbn [fa_name fa_order_max fa_make_plots with_orders] in *.
  split; [exact J|]. split; [exact D|]. split.
  - intros n Hn. destruct (table_after_fit isot orc (with_orders a N) s s1 c W R1 F Hc I) as (j' & J' & D' & T). cbv zeta in T.
    change (fit_dir (with_orders a N)) with (fit_dir a) in *. cbn [fa_name fa_order_max with_orders] in *.
    destruct (T n Hn) as (r & _ & _ & _ & _ & _ & _ & _ & T' & _).
    assert (E : j' = j).
    { destruct (Nat.eq_dec j' j) as [E|Ne]; [exact E|]. exfalso.
      assert (X : s1 (numbered (fit_dir a) (fa_name a) j' ++ ["pyoof_info.yml"]) = None);
        [|pose proof (table_missing isot [] (numbered (fit_dir a) (fa_name a) j') [] n s1 [] (Forall2_nil _) (or_introl X)) as Y; pose proof (eq_trans (eq_sym T') Y) as Z; discriminate Z].
      rewrite Fr; [exact (wf_under s _ _ W D')| | |].
      - intros [t A]. apply (f_equal (@length _)) in A. rewrite !app_length, !numbered_length in A. cbn [length] in A. lia.
      - intros _ _ A. apply same_length_app in A as [_ A]; [discriminate A|rewrite !numbered_length; reflexivity].
      - intros f Hf A. apply same_length_app in A as [A _]; [|rewrite !numbered_length; reflexivity]. apply numbered_inj in A. destruct A. contradiction. }
    subst j'.
    exists r. assert (T1 : fst (run (table_pyoof_out isot [numbered (fit_dir a) (fa_name a) j] n) (snd (steps k (fit_zpoly orc a) s))) = Ok (n, [r])) by (rewrite Hk, T'; reflexivity).
    split; [exact T1|]. exact (table_cut isot _ n orc a s sf k _ W F R T1).
  - intros n Hn. rewrite Hk. apply (f_equal fst (y := (Err FileNotFoundError, s1))), (table_missing isot [] (numbered (fit_dir a) (fa_name a) j) [] n s1 [] (Forall2_nil _)). right. split.
    + destruct (Fi ["pyoof_info.yml"]) as (dc & _ & E); [|exists dc; exact E]. destruct N as [|N']; [lia|]. apply in_or_app. left. apply (in_map (fun f => [f])), in_or_app. left. cbn. tauto.
    + rewrite Fr; [exact (wf_under s _ _ W D)| | |].
      * intros [t A]. apply (f_equal (@length _)) in A. rewrite !app_length in A. cbn [length] in A. lia.
      * intros _ _ A. apply app_inv_head in A. discriminate A.
      * intros f Hf A. apply app_inv_head in A. exact (phase_late n N _ (proj1 L) Hn f Hf (eq_sym A)).
Qed.

(** Some schedule ends all of them. *)
Lemma pool_ends (fits : list (oracle * fit_args)) s : independent fits s -> exists sched, forall p, In p (fst (interleave_all sched (all_fits fits) s)) -> finished p <> None.
Proof.
  intros Hi. destruct fits as [|f t] eqn:E; [exists []; intros p []|]. rewrite <- E in *. assert (L : (0 < length fits)%nat) by (rewrite E; cbn; lia). clear E f t.
  destruct (pool_fair fits s (fun k => Nat.modulo k (length fits)) Hi) as [n Hn]; [intros i m Hm; exists (m * length fits + i)%nat; split; [nia|]; rewrite Nat.add_comm, Nat.mod_add by lia; apply Nat.mod_small, Hm|].
  exists (first_turns (fun k => Nat.modulo k (length fits)) n). intros p Hp. destruct (interleave_all _ _ s) as [ps s'] eqn:H. cbn [fst] in Hp.
  destruct (pool fits s _ ps s' Hi H) as (Len & _ & _). apply In_nth_error in Hp as [i Ei]. destruct (nth_error fits i) as [[o a]|] eqn:Ef.
  - destruct (Hn n (le_n n) i o a Ef) as (p' & Ep & Fp & _). rewrite H in Ep. cbn [fst] in Ep. rewrite Ei in Ep. injection Ep as <-. rewrite Fp. discriminate.
  - apply nth_error_None in Ef. assert (i < length ps)%nat by (apply nth_error_Some; congruence). lia.
Qed.
