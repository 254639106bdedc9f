(** fit_zpoly: files, contents, starting points. *)
From Coq Require Import String Ascii List Sorted FunctionalExtensionality.
From Verif Require Import PyBase Num MZernike SZernike PEnum MMath MAperture MRad MCore PParams MFs MOut PFs PStr PFit SOut SFit PFit2 PFit3.
Import ListNotations.
Open Scope R_scope.
Open Scope string_scope.
Open Scope list_scope.
Open Scope prog_scope.

(** ** C38: the set of files *)
Lemma order_files_map n : order_files n = map (fun pre => pre ^^ dec n ^^ ".csv")
  ["fitpar_n"; "res_n"; "jac_n"; "grad_n"; "phase_n"; "cov_n"; "corr_n"].
Proof. reflexivity. Qed.
Lemma order_figures_map n : order_figures n = map (fun pre => pre ^^ dec n ^^ ".pdf")
  ["fitbeam_n"; "fitphase_n"; "residual_n"; "cov_n"; "corr_n"].
Proof. reflexivity. Qed.
Lemma documented_in N pl q : In q (documented N pl) <->
  q <> ["plots"] /\ exists n, (1 <= n <= N)%nat /\ In q (rel_names n pl).
Proof.
  split.
  - intros H. unfold documented in H. destruct N as [|M]; [destruct H|]. set (N := S M) in *.
    assert (HN : (1 <= N)%nat) by (unfold N; lia). apply in_app_or in H. destruct H as [H|H].
    + apply in_map_iff in H. destruct H as (f & <- & H). apply in_app_or in H. destruct H as [H|H].
      * split; [intros E; inversion E; subst f; cbn [In data_files] in H; str_in H|].
        exists 1%nat. split; [lia|]. apply rel_names_in. right. left. split; [reflexivity|]. exists f. split; [reflexivity|].
        unfold data_files in H. cbn [In] in H |- *. tauto.
      * apply in_flat_map in H. destruct H as (n & Hn & H). apply in_seq in Hn. rewrite order_files_map in H.
        apply in_map_iff in H. destruct H as (pre & E & H). split.
        -- intros E2. inversion E2; subst f. clear - H H1. cbn [In] in H. str_in H; subst pre; discriminate H1.
        -- exists n. split; [lia|]. apply rel_names_in. left. exists pre. subst f. auto.
    + destruct pl; [|destruct H]. apply in_map_iff in H. destruct H as (f & <- & H). split; [discriminate|].
      destruct H as [<-|H].
      * exists 1%nat. split; [lia|]. apply rel_names_in. right. right. split; [reflexivity|]. right. right. auto.
      * apply in_flat_map in H. destruct H as (n & Hn & H). apply in_seq in Hn. rewrite order_figures_map in H.
        apply in_map_iff in H. destruct H as (pre & E & H). exists n. split; [lia|]. apply rel_names_in.
        right. right. split; [reflexivity|]. right. left. exists pre. subst f. auto.
  - intros (Hq & n & Hn & H). unfold documented. destruct N as [|M]; [lia|]. set (N := S M) in *.
    assert (Hs : In n (seq 1 N)) by (apply in_seq; lia).
    apply in_or_app. apply rel_names_in in H.
    destruct H as [(pre & -> & H)|[(-> & f & -> & H)|(-> & [->|[(pre & -> & H)|(-> & ->)]])]].
    + left. apply in_map_iff. eexists. split; [reflexivity|]. apply in_or_app. right. apply in_flat_map. exists n.
      split; [exact Hs|]. rewrite order_files_map. apply in_map_iff. exists pre. auto.
    + left. apply in_map_iff. exists f. split; [reflexivity|]. apply in_or_app. left. unfold data_files. cbn [In] in H |- *. tauto.
    + congruence.
    + right. apply in_map_iff. eexists. split; [reflexivity|]. right. apply in_flat_map. exists n.
      split; [exact Hs|]. rewrite order_figures_map. apply in_map_iff. exists pre. auto.
    + right. apply in_map_iff. exists "obsbeam.pdf". split; [reflexivity|]. left. reflexivity.
Qed.

(** The node written at each name. *)
Lemma order_writes_node a snrs n f r nd : In (r, nd) (order_writes a snrs n f) ->
  (r = ["plots"] /\ nd = Dir) \/ (r <> ["plots"] /\ exists dc, dc <> Partial /\ nd = File dc).
Proof.
  unfold order_writes. intros [E|Hin].
  { inversion E. right. split; [discriminate|]. eexists. split; [|reflexivity]. discriminate. }
  apply in_app_or in Hin. destruct Hin as [Hin|Hin].
  { destruct (Nat.eqb n 1); [destruct Hin as [E|[]]|destruct Hin]. inversion E. right. split; [discriminate|].
    eexists. split; [|reflexivity]. discriminate. }
  apply in_app_or in Hin. destruct Hin as [Hin|Hin].
  - right. assert (X : In r (map fst (csv_writes (fa_name a) (csv_rows n (order_data a f))))).
    { apply in_map_iff. exists (r, nd). auto. }
    apply csv_writes_in in X. destruct X as (g & E & Hg). split.
    + intros E2. rewrite E2 in E. inversion E; subst g. apply (plots_not_plain n). right. right. exact Hg.
    + unfold csv_writes in Hin. apply in_map_iff in Hin. destruct Hin as ([[f0 h] x] & E3 & _). inversion E3.
      eexists. split; [|reflexivity]. discriminate.
  - destruct (fa_make_plots a); [|destruct Hin]. destruct Hin as [E|Hin]; [inversion E; auto|].
    apply in_map_iff in Hin. destruct Hin as (g & E & _). inversion E. right. split; [discriminate|].
    eexists. split; [|reflexivity]. discriminate.
Qed.
Lemma all_writes_node a snrs n fl r nd : In (r, nd) (all_writes a snrs n fl) ->
  (r = ["plots"] /\ nd = Dir) \/ (r <> ["plots"] /\ exists dc, dc <> Partial /\ nd = File dc).
Proof.
  revert n. induction fl as [|f t IH]; intros n H; [destruct H|]. cbn [all_writes] in H. apply in_app_or in H.
  destruct H as [H|H]; [eapply order_writes_node; eauto|eauto].
Qed.

Lemma fit_files orc a s s' : wf s -> run (fit_zpoly orc a) s = (Ok tt, s') -> free_number a s ->
  exists j, (j <= 100)%nat /\ let d := numbered (fit_dir a) (fa_name a) j in
    s d = None /\ (forall i, (i < j)%nat -> s (numbered (fit_dir a) (fa_name a) i) <> None) /\
    (forall f, In f (documented (fa_order_max a) (fa_make_plots a)) -> exists dc, dc <> Partial /\ s' (d ++ f) = Some (File dc)) /\
    (forall q, above q d -> s' q = Some Dir) /\
    (fa_make_plots a = true -> (1 <= fa_order_max a)%nat -> s' (d ++ ["plots"]) = Some Dir) /\
    (forall q, ~ above q d ->
       (fa_make_plots a = true -> (1 <= fa_order_max a)%nat -> q <> d ++ ["plots"]) ->
       (forall f, In f (documented (fa_order_max a) (fa_make_plots a)) -> q <> d ++ f) -> s' q = s q).
Proof.
  intros W H Hfree. destruct (fit_post _ _ _ _ W Hfree H) as (c & j & snrs & fl & s1 & _ & _ & Hj & Hn & Hlt & Hab & Hnab & Hl & _ & Hs').
  cbv zeta in *. exists j. set (d := numbered (fit_dir a) (fa_name a) j) in *. split; [exact Hj|].
  set (AW := all_writes a snrs 1 fl) in *.
  assert (Hlook : forall r, In r (map fst AW) -> exists nd, In (r, nd) AW /\ s' (d ++ r) = Some nd).
  { intros r Hr. destruct (apply_writes_some s1 (map (under d) AW) (d ++ r)) as (nd & Hin & E).
    - rewrite under_names. apply in_map. exact Hr.
    - apply in_map_iff in Hin. destruct Hin as ([r' nd'] & E2 & Hin). unfold under in E2. simpl in E2.
      inversion E2 as [[E3 E4]]. apply app_inv_head in E3. subst. exists nd. auto. }
  assert (Hnames : forall r, In r (map fst AW) <-> exists n, (1 <= n <= fa_order_max a)%nat /\ In r (rel_names n (fa_make_plots a))).
  { intros r. split.
    - intros Hr. apply all_writes_names in Hr. destruct Hr as (i & Hi & Hr). exists (1 + i)%nat. split; [lia|exact Hr].
    - intros (n & Hn1 & Hr). apply (all_writes_names_conv a snrs 1 fl r (n - 1)); [lia|].
      replace (1 + (n - 1))%nat with n by lia. exact Hr. }
  split; [exact Hn|]. split; [exact Hlt|]. split.
  { intros f Hf. apply documented_in in Hf. destruct Hf as (Hp & Hf). apply Hnames in Hf. apply Hlook in Hf.
    destruct Hf as (nd & Hin & E). apply all_writes_node in Hin. destruct Hin as [(Ep & _)|(_ & dc & Hdc & ->)]; [congruence|].
    exists dc. auto. }
  split.
  { intros q Hq. rewrite Hs'. rewrite writes_under_other; [apply Hab, Hq|]. intros (r & Hr & E).
    destruct Hq as [t Et]. assert (r = []).
    { apply (f_equal (@length _)) in E, Et. rewrite app_length in E, Et. destruct r; auto. simpl in E. lia. }
    subst r. apply Hnames in Hr. destruct Hr as (n & _ & Hr). eapply rel_not_nil; eauto. }
  split.
  { intros Hpl HN. assert (Hr : In ["plots"] (map fst AW)).
    { apply Hnames. exists 1%nat. split; [lia|]. apply rel_names_in. right. right. auto. }
    apply Hlook in Hr. destruct Hr as (nd & Hin & E). apply all_writes_node in Hin.
    destruct Hin as [(_ & ->)|(Hne & _)]; [exact E|congruence]. }
  intros q Hq Hpl Hdoc. rewrite Hs'. rewrite writes_under_other; [apply Hnab, Hq|]. intros (r & Hr & E).
  apply Hnames in Hr. destruct (list_eq_dec string_dec r ["plots"]) as [->|Hne].
  - destruct Hr as (n & Hn1 & Hr). apply Hpl; [|lia|exact E]. apply rel_names_in in Hr.
    destruct Hr as [(p & Ep & Hp)|[(_ & f & Ep & Hp)|(Ep & _)]]; [| |exact Ep].
    + inversion Ep as [Ep']. exfalso. cbn [In] in Hp. str_in Hp; subst p; discriminate Ep'.
    + inversion Ep as [Ep']. subst f. exfalso. cbn [In] in Hp. str_in Hp.
  - apply (Hdoc r); [|exact E]. apply documented_in. auto.
Qed.
