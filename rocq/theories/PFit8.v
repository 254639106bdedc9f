(** Every call of the optimizer starts inside its bounds. *)
From Coq Require Import String Ascii List Sorted FunctionalExtensionality.
From Verif Require Import PyBase PyLib Num MZernike SZernike PEnum MMath MAperture PPhase MRad MCore PParams MFs MOut PFs PStr PFit SOut SFit PFit2 PFit3 PFit4 PFit5 PFit6 PFit7.
Import ListNotations.
Open Scope R_scope.
Open Scope string_scope.
Open Scope list_scope.
Open Scope prog_scope.

Lemma within_app le x y lo lo' hi hi' : within le x lo hi -> within le y lo' hi' -> within le (x ++ y) (lo ++ lo') (hi ++ hi').
Proof.
  intros (A1 & A2 & A3) (B1 & B2 & B3). split; [rewrite !app_length; lia|]. split; [rewrite !app_length; lia|].
  intros i Hi. rewrite app_length in Hi. destruct (Nat.ltb i (length x)) eqn:E.
  - apply Nat.ltb_lt in E. rewrite !app_nth1 by lia. apply A3, E.
  - apply Nat.ltb_ge in E. rewrite !app_nth2 by lia. rewrite A1, A2. apply B3. lia.
Qed.
Lemma within_repeat (le : R -> R -> Prop) x lo hi n : le lo x -> le x hi -> within le (repeat x n) (repeat lo n) (repeat hi n).
Proof.
  intros H1 H2. split; [rewrite !repeat_length; lia|]. split; [rewrite !repeat_length; lia|].
  intros i Hi. rewrite repeat_length in Hi. rewrite !(nth_indep (repeat _ n) 0 x) by (rewrite repeat_length; exact Hi).
  rewrite nth_repeat.
  rewrite (nth_indep _ x lo) by (rewrite repeat_length; exact Hi). rewrite nth_repeat.
  rewrite (nth_indep (repeat hi n) x hi) by (rewrite repeat_length; exact Hi). rewrite nth_repeat. auto.
Qed.
Lemma delete_at_app {A} off ex (v r : list A) : (forall e, In e ex -> (e < off + length v)%nat) ->
  delete_at off ex (v ++ r) = delete_at off ex v ++ r.
Proof.
  revert off. induction v as [|x v IH]; intros off H.
  - cbn [app delete_at]. simpl in H. clear -H. revert off H. induction r as [|y r IH]; intros off H; [reflexivity|]. cbn [delete_at].
    assert (E : existsb (Nat.eqb off) ex = false).
    { destruct (existsb _ ex) eqn:E; [|reflexivity]. apply existsb_exists in E. destruct E as (e & He & E).
      apply Nat.eqb_eq in E. specialize (H e He). lia. }
    rewrite E. f_equal. apply IH. intros e He. specialize (H e He). lia.
  - cbn [app delete_at]. rewrite IH by (intros e He; specialize (H e He); simpl in H; lia). destruct (existsb _ ex); reflexivity.
Qed.


Section Guard.
Variable le : R -> R -> Prop.
Hypothesis lt_le : forall x y, x < y -> le x y.
Variable orc : oracle.
Variable g : (list R -> res (list R)) -> list R -> list R -> list R -> res lsq_out.
Hypothesis agree : forall f x0 lo hi, within le x0 lo hi -> g f x0 lo hi = or_lsq orc f x0 lo hi.
Hypothesis respects : forall f x0 lo hi out, within le x0 lo hi -> or_lsq orc f x0 lo hi = Ok out -> within le (lo_x out) lo hi.

Lemma same_order a c snrs d n s init : run (start_params c (fa_fit_previous a) d n) s = (Ok init, s) ->
  (forall x0 lo hi, np_delete init (cf_excluded c) = Ok x0 ->
     np_delete (cf_bound_min c ++ repeat (-5)%R (n_coeff n - 3)) (cf_excluded c) = Ok lo ->
     np_delete (cf_bound_max c ++ repeat 5%R (n_coeff n - 3)) (cf_excluded c) = Ok hi -> within le x0 lo hi) ->
  run (fit_order (with_lsq orc g) a c snrs d n) s = run (fit_order orc a c snrs d n) s.
Proof.
  intros Hst Hw. unfold fit_order. cbv zeta. rewrite !run_bind, Hst, !run_bind, !run_lift.
  destruct (np_delete init (cf_excluded c)) as [x0|e]; [|reflexivity]. rewrite !run_bind, !run_lift.
  destruct (np_delete (cf_bound_min c ++ _) _) as [lo|e]; [|reflexivity]. rewrite !run_bind, !run_lift.
  destruct (np_delete (cf_bound_max c ++ _) _) as [hi|e]; [|reflexivity]. rewrite !run_bind, !run_lift.
  cbn [with_lsq or_lsq]. rewrite agree by (apply Hw; reflexivity). reflexivity.
Qed.

(** Loop: the bounds of order n-1 contain the fitted part of [prev]. *)
Lemma same_orders a c snrs d ex m n s prev :
  sized_answers orc -> valid_config c -> cf_excluded c = map Z.of_nat ex -> Sorted lt ex -> (forall e, In e ex -> (e < 8)%nat) ->
  within le (delete_at 0 ex (cf_init c)) (delete_at 0 ex (cf_bound_min c)) (delete_at 0 ex (cf_bound_max c)) ->
  (1 <= n)%nat -> ready a d n s prev ->
  (fa_fit_previous a && negb (Nat.eqb n 1) = true ->
     within le (delete_at 0 ex prev) (delete_at 0 ex (cf_bound_min c) ++ repeat (-5) (n_coeff (n - 1) - 3))
            (delete_at 0 ex (cf_bound_max c) ++ repeat 5 (n_coeff (n - 1) - 3))) ->
  run (fit_orders (with_lsq orc g) a c snrs d (seq n m)) s = run (fit_orders orc a c snrs d (seq n m)) s.
Proof.
  intros Hsz Hv Hex Hs He Hini. pose proof Hv as (Lc & Lf & Ll & Lh & _).
  assert (Hnp : forall v : list R, (8 <= length v)%nat -> np_delete v (cf_excluded c) = Ok (delete_at 0 ex v)).
  { intros v Hl. rewrite Hex. apply np_delete_nat. intros e H. specialize (He e H). lia. }
  assert (Happ : forall v r : list R, (8 <= length v)%nat -> delete_at 0 ex (v ++ r) = delete_at 0 ex v ++ r).
  { intros v r Hl. apply delete_at_app. intros e H. specialize (He e H). lia. }
  assert (H5 : le (-5) (1 / 10) /\ le (1 / 10) 5) by (split; apply lt_le; lra).
  revert n s prev. induction m as [|m IH]; intros n s prev Hn Hr Hpw; [reflexivity|].
  cbn [seq fit_orders]. rewrite !run_bind. pose proof (n_coeff_ge3 n Hn) as H3.
  assert (Hw : within le (delete_at 0 ex (start_of a c n prev)) (delete_at 0 ex (cf_bound_min c) ++ repeat (-5) (n_coeff n - 3))
        (delete_at 0 ex (cf_bound_max c) ++ repeat 5 (n_coeff n - 3))).
  { unfold start_of. destruct (_ && _) eqn:E.
    - pose proof (Hpw eq_refl) as Hp. destruct Hr as (_ & _ & Hr). destruct (Hr E) as (Lp & _).
      assert (Hn2 : (2 <= n)%nat) by (destruct (Nat.eqb n 1) eqn:E1; [rewrite andb_false_r in E; discriminate|apply Nat.eqb_neq in E1; lia]).
      pose proof (n_coeff_ge3 (n - 1)) as H3'. pose proof (n_coeff_pred n Hn) as Hpr. rewrite half_tri, Happ by lia.
      replace (n_coeff n - 3)%nat with ((n_coeff (n - 1) - 3) + (n_coeff n - (n_coeff n - (n + 1))))%nat by lia.
      rewrite !repeat_app, !app_assoc. apply within_app; [exact Hp|]. apply within_repeat; tauto.
    - rewrite Happ by lia. apply within_app; [exact Hini|]. apply within_repeat; tauto. }
  rewrite (same_order a c snrs d n s (start_of a c n prev)).
  - destruct (run (fit_order orc a c snrs d n) s) as [[[]|e] s1] eqn:E; [|reflexivity].
    pose proof Hr as (Hi & _). apply fit_order_post in E; [|apply Hi|apply Hi]. destruct E as (f & Hst & Hok & Hs1).
    rewrite (start_run a c d n s prev Hr) in Hst. assert (Ef : ft_init f = start_of a c n prev) by congruence.
    apply (IH (S n) s1 (ft_sol f)); [lia|eapply ready_next; eauto|]. intros _. replace (S n - 1)%nat with n by lia.
    destruct (pinned orc a c n f ex Hn Hok Hsz Hex Hs He Lf) as (L1 & _ & L3).
    destruct Hok as (K1 & K2 & K3 & K4 & _). rewrite Ef, Hnp in K1 by (rewrite (start_length a c d n s prev Hn Lc Hr); lia).
    rewrite Hnp, Happ in K2, K3 by (rewrite ?app_length; lia). apply Ok_inj in K1, K2, K3.
    rewrite Hnp in L3 by lia. apply Ok_inj in L3. rewrite L3. subst.
    rewrite K2, K3. eapply respects; [|exact K4]. rewrite <- K1, <- K2, <- K3. exact Hw.
  - apply start_run, Hr.
  - intros x0 lo hi K1 K2 K3. rewrite Hnp in K1 by (rewrite (start_length a c d n s prev Hn Lc Hr); lia).
    rewrite Hnp, Happ in K2, K3 by (rewrite ?app_length; lia). apply Ok_inj in K1, K2, K3. subst. exact Hw.
Qed.

Lemma same_fit a s c ex : sized_answers orc -> wf s -> free_number a s -> configured a s c -> valid_config c ->
  cf_excluded c = map Z.of_nat ex -> Sorted lt ex -> (forall e, In e ex -> (e < 8)%nat) ->
  within le (delete_at 0 ex (cf_init c)) (delete_at 0 ex (cf_bound_min c)) (delete_at 0 ex (cf_bound_max c)) ->
  run (fit_zpoly (with_lsq orc g) a) s = run (fit_zpoly orc a) s.
Proof.
  intros Hsz W Hf Hc Hv Hex Hs He Hini. unfold fit_zpoly. cbv zeta. fold (fit_dir a). rewrite !run_bind, (load_configured a s c Hc), !run_bind.
  destruct (run (pick_dir (fit_dir a) (fa_name a)) s) as [[d|e] s1] eqn:Ed; [|reflexivity].
  change (snr_values (with_lsq orc g) a) with (snr_values orc a). rewrite !run_bind, !run_lift.
  destruct (snr_values orc a) as [snrs|e]; [|reflexivity].
  apply pick_post in Ed; [|exact W]. destruct Ed as [(j & Hj & Ed & Hn & _ & Hab & Hnab)|(Hall & _)].
  - eapply same_orders; eauto; [eapply fresh_ready; eauto|]. rewrite andb_false_r. discriminate.
  - exfalso. destruct Hf as (j & Hj & Hn). exact (Hall j Hj Hn).
Qed.
End Guard.

Lemma default_within : within Rlt (delete_at 0 [1; 2; 3; 4; 5]%nat (cf_init default_config))
  (delete_at 0 [1; 2; 3; 4; 5]%nat (cf_bound_min default_config)) (delete_at 0 [1; 2; 3; 4; 5]%nat (cf_bound_max default_config)).
Proof.
  cbn. split; [reflexivity|]. split; [reflexivity|]. intros i Hi. simpl in Hi.
  destruct i as [|[|[|i]]]; [| | |lia]; cbn; lra.
Qed.

(** ** Successive runs *)
Lemma next_number orc a s s' : wf s -> free_number a s -> run (fit_zpoly orc a) s = (Ok tt, s') ->
  exists j, (j <= 100)%nat /\ s (numbered (fit_dir a) (fa_name a) j) = None /\
    (forall i, (i < j)%nat -> s (numbered (fit_dir a) (fa_name a) i) <> None) /\
    (forall i, (i <= j)%nat -> s' (numbered (fit_dir a) (fa_name a) i) <> None) /\
    (forall i, (j < i)%nat -> s' (numbered (fit_dir a) (fa_name a) i) = s (numbered (fit_dir a) (fa_name a) i)).
Proof.
  intros W Hf H. pose proof (always_run _ _ _ (fit_always orc a s W Hf)) as Hu. rewrite H in Hu. cbn [snd] in Hu.
  destruct (fit_files _ _ _ _ W H Hf) as (j & Hj & Hn & Hlt & _ & Hab & _ & Hoth).
  exists j. split; [exact Hj|]. split; [exact Hn|]. split; [exact Hlt|]. split.
  - intros i Hi. destruct (Nat.eq_dec i j) as [->|Hne].
    + rewrite Hab; [discriminate|]. exists []. rewrite app_nil_r. reflexivity.
    + assert (X : s (numbered (fit_dir a) (fa_name a) i) <> None) by (apply Hlt; lia). rewrite Hu; assumption.
  - intros i Hi. assert (Hne : forall r, numbered (fit_dir a) (fa_name a) i <> numbered (fit_dir a) (fa_name a) j ++ r).
    { intros r E. assert (r = []) as ->.
      { apply (f_equal (@length _)) in E. rewrite app_length, !numbered_length in E. destruct r; [reflexivity|simpl in E; lia]. }
      rewrite app_nil_r in E. apply numbered_inj in E. lia. }
    apply Hoth.
    + intros [t Et]. assert (t = []) as ->.
      { apply (f_equal (@length _)) in Et. rewrite app_length, !numbered_length in Et. destruct t; [reflexivity|simpl in Et; lia]. }
      rewrite app_nil_r in Et. apply numbered_inj in Et. lia.
    + intros _ _. apply Hne.
    + intros f _. apply Hne.
Qed.
