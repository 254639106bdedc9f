(** Looking at files that exist while fits are running. *)
From Coq Require Import String Ascii List Lia Arith.
From Verif Require Import PyBase PyLib Num MFs MOut MScript MAux MTab MPlot SOut SFit SPool SWatch PFs PTab PConc2 PMpi PPool PPool2.
Import ListNotations.
Open Scope nat_scope.
Open Scope list_scope.
Open Scope prog_scope.

(** Every call of the lone run leaves the files as they are and has the same answer in each
    state in which what exists now is unaltered. *)
Fixpoint steady {A} (p : prog A) (s : fs) : Prop :=
  match p with
  | Ret _ | Raise _ => True
  | Do _ o k => (forall s', unaltered s s' -> exec o s' = (fst (exec o s), s')) /\ steady (k (fst (exec o s))) s
  end.
Lemma unaltered_refl s : unaltered s s.
Proof. intros q _. reflexivity. Qed.

Lemma steady_same {A} (p : prog A) s : steady p s -> snd (run p s) = s.
Proof.
  induction p as [a|e|X o k IH]; intros H; [reflexivity|reflexivity|]. destruct H as [H1 H2]. cbn [run]. pose proof (H1 s (unaltered_refl s)) as E.
  destruct (exec o s) as [x s1]. cbn [fst] in *. injection E as ->. apply IH, H2.
Qed.

Definition looks {A} (p : prog A) (s : fs) : Prop := forall x, fst (run p s) = Ok x -> steady p s.
Lemma looks_ret {A} (a : A) s : looks (Ret a) s.
Proof. intros x _. exact I. Qed.
Lemma looks_raise {A} e s : looks (Raise (A := A) e) s.
Proof. intros x _. exact I. Qed.
Lemma looks_lift {A} (r : res A) s : looks (lift r) s.
Proof. destruct r; [apply looks_ret|apply looks_raise]. Qed.
Lemma looks_read p s : looks (callE (Read p)) s.
Proof.
  intros x H. cbn [callE run exec] in H. destruct (s p) as [[|d]|] eqn:E; cbn in H; try discriminate H. cbn [callE steady exec fst]. rewrite E. split; [|exact I].
  intros s' U. rewrite (U p), E by congruence. reflexivity.
Qed.
Lemma steady_bind {A B} (p : prog A) (k : A -> prog B) s : steady p s -> (forall a, fst (run p s) = Ok a -> steady (k a) s) -> steady (bindP p k) s.
Proof.
  induction p as [a|e|X o k0 IH]; intros H K; cbn [bindP].
  - apply K. reflexivity.
  - exact I.
  - destruct H as [H1 H2]. split; [exact H1|]. apply IH; [exact H2|]. intros a Ha. apply K. cbn [run]. pose proof (H1 s (unaltered_refl s)) as E.
    destruct (exec o s) as [x s1]. cbn [fst] in *. injection E as ->. exact Ha.
Qed.
Lemma looks_bind {A B} (p : prog A) (k : A -> prog B) s : looks p s -> (forall a, looks (k a) s) -> looks (bindP p k) s.
Proof.
  intros Hp Hk x H. rewrite run_bind in H. destruct (run p s) as [[a|e] s1] eqn:E; [|discriminate H]. assert (Sp : steady p s) by (apply (Hp a); rewrite E; reflexivity).
  pose proof (steady_same p s Sp) as S1. rewrite E in S1. cbn in S1. subst s1. apply steady_bind; [exact Sp|]. intros b Hb. rewrite E in Hb. apply Ok_inj in Hb. subst b. exact (Hk a x H).
Qed.

(** ** The programs that only look *)
Ltac looking := repeat (first [apply looks_ret | apply looks_raise | apply looks_lift | apply looks_read | apply looks_bind; [|intros ?] | match goal with |- looks (match ?x with _ => _ end) _ => destruct x end]).
Lemma looks_row d n s : looks (table_row d n) s.
Proof. unfold table_row. looking. Qed.
Lemma looks_rows ds n s : looks (table_rows ds n) s.
Proof. induction ds as [|d t IH]; [apply looks_ret|]. cbn [table_rows]. apply looks_bind; [apply looks_row|]. intros r. apply looks_bind; [exact IH|]. intros rs. apply looks_ret. Qed.
Lemma looks_table isot ds n s : looks (table_pyoof_out isot ds n) s.
Proof. unfold table_pyoof_out. apply looks_bind; [apply looks_rows|]. intros rows. looking. Qed.
Lemma looks_pyoof cwd f s : looks (extract_data_pyoof cwd f) s.
Proof. unfold extract_data_pyoof, open_fits. cbv zeta. looking. Qed.
Lemma looks_effelsberg cwd f s : looks (extract_data_effelsberg cwd f) s.
Proof. unfold extract_data_effelsberg, open_fits. cbv zeta. looking. Qed.
Lemma looks_draw gd pt strict d n illum tel g plim s : s (d ++ ["plots"%string]) <> None -> looks (draw_fit_path gd pt strict d n illum tel g plim false) s.
Proof.
  intros P x H. unfold draw_fit_path in *. cbv zeta in *. cbn [call bindP] in *. cbn [run exec] in H. cbn [steady exec fst].
  split.
  - intros s' U. rewrite (U _ P). reflexivity.
  - destruct (s (d ++ ["plots"%string])); [|congruence]. cbn [bindP] in *. revert x H. 
    match goal with |- forall x, fst (run ?p s) = Ok x -> _ => change (looks p s) end.
    unfold read_parfit, read_info, read_matrix. looking.
Qed.

(** ** Beside other programs *)
Lemma steady_steps {A} n : forall (p : prog A) s x, steady p s -> unaltered s x -> steps n p x = (fst (steps n p s), x) /\ steady (fst (steps n p s)) s.
Proof.
  induction n as [|n IH]; intros p s x H U; [split; [reflexivity|exact H]|]. destruct p as [a|e|X o k]; [split; [reflexivity|exact I]|split; [reflexivity|exact I]|].
  destruct H as [H1 H2]. cbn [steps]. rewrite (H1 x U). rewrite (H1 s (unaltered_refl s)). exact (IH _ s x H2 U).
Qed.
Lemma all_app {A} a b : forall (ps : list (prog A)) s, interleave_all (a ++ b) ps s = let '(ps', s') := interleave_all a ps s in interleave_all b ps' s'.
Proof.
  induction a as [|i a IH]; intros ps s; [reflexivity|]. cbn [app interleave_all]. destruct (nth_error ps i) as [p|]; [|apply IH]. destruct (steps 1 p s) as [p' s']. apply IH.
Qed.
Lemma beside_steady {A B} sched : forall (look : prog A) (done : list nat) (ps0 : list (prog B)) s,
  steady look s -> (forall pre, unaltered s (snd (interleave_all pre ps0 s))) ->
  let '(ps, x) := interleave_all done ps0 s in
  beside sched look ps x = (let '(ps', x') := interleave_all (done ++ other_turns sched) ps0 s in (fst (steps (own_turns sched) look s), ps', x')).
Proof.
  induction sched as [|[i|] t IH]; intros look done ps0 s L U.
  - cbn [other_turns flat_map own_turns filter length beside steps fst]. rewrite app_nil_r. destruct (interleave_all done ps0 s) as [ps x]. reflexivity.
  - specialize (IH look (done ++ [i]) ps0 s L U). rewrite all_app in IH. destruct (interleave_all done ps0 s) as [ps x]. cbn [beside].
    destruct (interleave_all [i] ps x) as [ps1 x1]. rewrite IH. cbn [other_turns flat_map app]. rewrite <- app_assoc. reflexivity.
  - pose proof (U done) as Ud. specialize (IH (fst (steps 1 look s)) done ps0 s (proj2 (steady_steps 1 look s s L (unaltered_refl s))) U).
    destruct (interleave_all done ps0 s) as [ps x]. cbn [snd] in Ud. cbn [beside]. rewrite (proj1 (steady_steps 1 look s x L Ud)). rewrite IH. cbn [other_turns flat_map app].
    unfold own_turns at 2. cbn [filter length]. fold (own_turns t). 
    assert (E : steps (S (own_turns t)) look s = steps (own_turns t) (fst (steps 1 look s)) s).
    { destruct look as [a|e|X o k]; [destruct (own_turns t); reflexivity|destruct (own_turns t); reflexivity|]. cbn [steps]. destruct L as [L1 _]. pose proof (L1 s (unaltered_refl s)) as E.
      destruct (exec o s) as [y s1]. cbn [fst] in *. injection E as ->. reflexivity. }
    rewrite E. reflexivity.
Qed.
Lemma steady_run {A} (p : prog A) : forall s, steady p s -> exists k, forall n, k <= n -> finished (fst (steps n p s)) = Some (fst (run p s)).
Proof.
  induction p as [a|e|X o k IH]; intros s H.
  - exists 0. intros n _. destruct n; reflexivity.
  - exists 0. intros n _. destruct n; reflexivity.
  - destruct H as [H1 H2]. destruct (IH _ s H2) as [m Hm]. exists (S m). intros n Hn. destruct n as [|n]; [lia|]. cbn [steps run]. pose proof (H1 s (unaltered_refl s)) as E.
    destruct (exec o s) as [y s1]. cbn [fst] in *. injection E as ->. apply Hm. lia.
Qed.
Lemma finished_steps_run {A} n : forall (p : prog A) s r, finished (fst (steps n p s)) = Some r -> r = fst (run p s).
Proof.
  induction n as [|n IH]; intros p s r H; destruct p as [a|e|X o k]; cbn [steps fst finished] in H; try (injection H as <-; reflexivity); [discriminate H|].
  cbn [run]. destruct (exec o s) as [y s1]. exact (IH _ _ _ H).
Qed.

Lemma watch {A} (look : prog A) (x : A) (fits : list (oracle * fit_args)) s : looks look s -> fst (run look s) = Ok x ->
  independent fits s -> (forall f, In f fits -> free_number (snd f) s) ->
  (forall sched r ps s', beside sched look (all_fits fits) s = (r, ps, s') ->
    interleave_all (other_turns sched) (all_fits fits) s = (ps, s') /\ forall y, finished r = Some y -> y = Ok x) /\
  exists k, forall sched r ps s', k <= own_turns sched -> beside sched look (all_fits fits) s = (r, ps, s') -> finished r = Some (Ok x).
Proof.
  intros L X In Fr. pose proof (L x X) as St.
  assert (U : forall pre, unaltered s (snd (interleave_all pre (all_fits fits) s))).
  { intros pre. destruct (interleave_all pre (all_fits fits) s) as [ps x1] eqn:E. exact (proj1 (proj2 (power_cut fits s pre ps x1 In Fr E))). }
  assert (E : forall sched r ps s', beside sched look (all_fits fits) s = (r, ps, s') -> interleave_all (other_turns sched) (all_fits fits) s = (ps, s') /\ r = fst (steps (own_turns sched) look s)).
  { intros sched r ps s' H. pose proof (beside_steady sched look [] (all_fits fits) s St U) as B. cbn [interleave_all app] in B. rewrite B in H.
    destruct (interleave_all (other_turns sched) (all_fits fits) s) as [ps1 s1]. injection H as <- <- <-. auto. }
  split.
  - intros sched r ps s' H. destruct (E _ _ _ _ H) as [E1 ->]. split; [exact E1|]. intros y Hy. rewrite <- X. exact (finished_steps_run _ _ _ _ Hy).
  - destruct (steady_run look s St) as [k Hk]. exists k. intros sched r ps s' Hn H. destruct (E _ _ _ _ H) as [_ ->]. rewrite <- X. exact (Hk _ Hn).
Qed.
