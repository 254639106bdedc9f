(** Any number of programs at the same time: every fair schedule completes them; a power cut. *)
From Coq Require Import String Ascii List Lia Classical.
From Verif Require Import PyBase PyLib Num MCore MFs MOut MScript PFs PStr PFit SOut SFit SPool PFit2 PFit3 PFit4 PConc PConc2 PCrash PDemo PMpi PMpi2 PPool.
Import ListNotations.
Open Scope nat_scope.
Open Scope list_scope.

Section Fair.
Context {A : Type} (f : nat -> nat) (ps : list (prog A)) (s : fs).
Hypothesis F : fair f (length ps).
Let st n := interleave_all (first_turns f n) ps s.

Lemma turn n : st (S n) = interleave_all [f n] (fst (st n)) (snd (st n)).
Proof. unfold st, first_turns. rewrite seq_S, map_app, interleave_app. cbn [map]. destruct (interleave_all (map f (seq 0 n)) ps s). reflexivity. Qed.
Lemma turn_other n i : f n <> i -> nth_error (fst (st (S n))) i = nth_error (fst (st n)) i.
Proof.
  intros N. rewrite turn. cbn [interleave_all]. destruct (nth_error (fst (st n)) (f n)) as [p|] eqn:E; [|reflexivity]. destruct (steps 1 p (snd (st n))) as [p' x]. cbn [fst].
  rewrite nth_error_set, E. destruct (Nat.eqb_spec (f n) i); [contradiction|reflexivity].
Qed.
Lemma turn_own n i p : f n = i -> nth_error (fst (st n)) i = Some p -> nth_error (fst (st (S n))) i = Some (fst (steps 1 p (snd (st n)))).
Proof.
  intros <- E. rewrite turn. cbn [interleave_all]. rewrite E. destruct (steps 1 p (snd (st n))) as [p' x] eqn:E2. cbn [fst]. rewrite nth_error_set, E, Nat.eqb_refl. reflexivity.
Qed.
Lemma next_turn d : forall n i p, f (n + d) = i -> nth_error (fst (st n)) i = Some p -> exists m x, nth_error (fst (st m)) i = Some (fst (steps 1 p x)).
Proof.
  induction d as [|d IH]; intros n i p Hf E.
  - rewrite Nat.add_0_r in Hf. exists (S n), (snd (st n)). apply turn_own; assumption.
  - destruct (Nat.eq_dec (f n) i) as [H|H]; [exists (S n), (snd (st n)); apply turn_own; assumption|].
    apply (IH (S n) i p); [rewrite <- Hf; f_equal; lia|]. rewrite turn_other by exact H. exact E.
Qed.
Lemma ended_stays n i p : finished p <> None -> nth_error (fst (st n)) i = Some p -> forall m, n <= m -> nth_error (fst (st m)) i = Some p.
Proof.
  intros Hp E m H. induction H as [|m H IH]; [exact E|]. destruct (Nat.eq_dec (f m) i) as [Q|Q]; [|rewrite turn_other by exact Q; exact IH].
  rewrite (turn_own m i p Q IH). destruct p; [reflexivity|reflexivity|]. cbn in Hp. congruence.
Qed.
Lemma ends p : forall n i, i < length ps -> nth_error (fst (st n)) i = Some p -> exists m q, finished q <> None /\ forall k, m <= k -> nth_error (fst (st k)) i = Some q.
Proof.
  induction p as [a|e|X o k IH]; intros n i Hi E.
  - exists n, (Ret a). split; [discriminate|]. apply ended_stays; [discriminate|exact E].
  - exists n, (Raise e). split; [discriminate|]. apply ended_stays; [discriminate|exact E].
  - destruct (F i n Hi) as (t & Ht & Hf). destruct (next_turn (t - n) n i _ ltac:(replace (n + (t - n)) with t by lia; exact Hf) E) as (m & x & Em).
    rewrite steps1 in Em. cbn [fst] in Em. apply (IH (fst (exec o x)) m i Hi Em).
Qed.
Lemma set_len n : length (fst (st n)) = length ps.
Proof.
  induction n as [|n IH]; [reflexivity|]. rewrite turn. cbn [interleave_all]. destruct (nth_error (fst (st n)) (f n)); [|exact IH]. destruct (steps 1 _ _). cbn [fst]. rewrite set_nth_length. exact IH.
Qed.
Lemma fair_ends : exists n, forall m, n <= m -> forall p, In p (fst (st m)) -> finished p <> None.
Proof.
  assert (X : forall k, k <= length ps -> exists n, forall m, n <= m -> forall i p, i < k -> nth_error (fst (st m)) i = Some p -> finished p <> None).
  { induction k as [|k IH]; intros Hk; [exists 0; lia|]. destruct (IH ltac:(lia)) as [n Hn]. destruct (nth_error ps k) as [p|] eqn:E; [|apply nth_error_None in E; lia].
    destruct (ends p 0 k ltac:(lia) E) as (m & q & Hq & Hm). exists (n + m). intros t Ht i p' Hi E'. destruct (Nat.eq_dec i k) as [->|N]; [|apply (Hn t ltac:(lia) i p' ltac:(lia) E')].
    rewrite (Hm t ltac:(lia)) in E'. congruence. }
  destruct (X (length ps) (le_n _)) as [n Hn]. exists n. intros m Hm p Hp. apply In_nth_error in Hp as [i Hi]. apply (Hn m Hm i p); [|exact Hi]. rewrite <- (set_len m). apply nth_error_Some. congruence.
Qed.
End Fair.

Lemma all_wf {A} sched : forall (ps : list (prog A)) s, wf s -> wf (snd (interleave_all sched ps s)).
Proof.
  induction sched as [|i t IH]; intros ps s W; [exact W|]. cbn [interleave_all]. destruct (nth_error ps i) as [p|]; [|apply IH, W]. pose proof (steps_wf 1 p s W) as W1. destruct (steps 1 p s) as [p' s1]. apply IH, W1.
Qed.
Lemma all_dirs {A} sched q : forall (ps : list (prog A)) s, s q = Some Dir -> snd (interleave_all sched ps s) q = Some Dir.
Proof.
  induction sched as [|i t IH]; intros ps s W; [exact W|]. cbn [interleave_all]. destruct (nth_error ps i) as [p|]; [|apply IH, W]. rewrite steps1. destruct p; [apply IH, W|apply IH, W|]. apply IH. apply exec_dirs, W.
Qed.
Lemma power_cut (fits : list (oracle * fit_args)) s sched ps s' : independent fits s -> (forall f, In f fits -> free_number (snd f) s) -> interleave_all sched (all_fits fits) s = (ps, s') ->
  file_tree s' /\ unaltered s s' /\
  forall o a sf, In (o, a) fits -> run (fit_zpoly o a) s = (Ok tt, sf) -> forall q, region a q -> s' q = s q \/ s' q = Some (File Partial) \/ s' q = sf q.
Proof.
  intros Hi Hf H. pose proof Hi as (W & Hu & _). destruct (pool fits s sched ps s' Hi H) as (L & K & N).
  assert (E : s' = snd (interleave_all sched (all_fits fits) s)) by (rewrite H; reflexivity).
  assert (Reg : forall o a, In (o, a) fits -> exists k, forall q, region a q -> s' q = snd (steps k (fit_zpoly o a) s) q).
  { intros o a Ha. apply In_nth_error in Ha as [i Ei]. assert (X : exists p, nth_error ps i = Some p). { destruct (nth_error ps i) eqn:Ep; [eauto|]. apply nth_error_None in Ep. assert (i < length fits) by (apply nth_error_Some; congruence). lia. }
    destruct X as [p Ep]. apply (K i o a p Ei Ep). }
  split; [rewrite E; apply all_wf; exact W|]. split.
  - intros q Hq. destruct (classic (exists f, In f fits /\ (region (snd f) q \/ q = base_of (snd f)))) as [([o a] & If & [Hr|Hb])|No].
    + destruct (Reg o a If) as [k Hk]. rewrite Hk by exact Hr. apply (proj1 (always_steps _ _ _ k (fit_always o a s W (Hf _ If)))). exact Hq.
    + cbn [snd] in Hb. subst q. apply In_nth_error in If as [i Ei]. destruct (Hu i _ Ei) as ((_ & [U|U]) & _); cbn [snd] in U; fold (base_of a) in U; [congruence|]. rewrite U, E. apply all_dirs. exact U.
    + apply N. intros g Hg. split; intros X; apply No; exists g; auto.
  - intros o a sf If R q Hq. destruct (Reg o a If) as [k Hk]. rewrite Hk by exact Hq. apply (crash_final o a s sf k q W (Hf _ If) R).
Qed.

Lemma demo_pool names N : NoDup names -> independent (map (fun nm => (demo_oracle, demo_args nm N)) names) demo_fs /\ forall f, In f (map (fun nm => (demo_oracle, demo_args nm N)) names) -> free_number (snd f) demo_fs.
Proof.
  intros ND. assert (Inv : forall i f, nth_error (map (fun nm => (demo_oracle, demo_args nm N)) names) i = Some f -> exists nm, nth_error names i = Some nm /\ f = (demo_oracle, demo_args nm N)).
  { intros i f E. rewrite nth_error_map in E. destruct (nth_error names i) as [nm|]; [|discriminate E]. injection E as <-. exists nm. auto. }
  split; [split; [exact demo_tree|split]|].
  - intros i f E. destruct (Inv i f E) as (nm & _ & ->). cbn [snd]. split; [apply PDemo.demo_usable|]. split; [left; apply demo_numbered|]. intros X. discriminate X.
  - intros i j f g Nij E E'. destruct (Inv i f E) as (nm & En & ->). destruct (Inv j g E') as (nm' & En' & ->). cbn [snd]. split; [|intros q X; discriminate X]. apply separate_names; [reflexivity|]. cbn [fa_name demo_args]. intros <-.
    apply Nij. apply (proj1 (NoDup_nth_error names) ND i j); [apply nth_error_Some; congruence|congruence].
  - intros f If. apply in_map_iff in If as (nm & <- & _). apply demo_free.
Qed.

Lemma pool_fair (fits : list (oracle * fit_args)) s f : independent fits s -> fair f (length fits) ->
  exists n, forall m, n <= m -> forall i o a, nth_error fits i = Some (o, a) -> exists p, nth_error (fst (interleave_all (first_turns f m) (all_fits fits) s)) i = Some p /\
    finished p = Some (fst (run (fit_zpoly o a) s)) /\ forall q, region a q -> snd (interleave_all (first_turns f m) (all_fits fits) s) q = snd (run (fit_zpoly o a) s) q.
Proof.
  intros Hi F. assert (F' : fair f (length (all_fits fits))) by (unfold all_fits; rewrite map_length; exact F).
  destruct (fair_ends f (all_fits fits) s F') as [n Hn]. exists n. intros m Hm i o a Ei. destruct (interleave_all (first_turns f m) (all_fits fits) s) as [ps s'] eqn:H.
  destruct (pool fits s _ ps s' Hi H) as (L & K & _). destruct (nth_error ps i) as [p|] eqn:Ep.
  2:{ apply nth_error_None in Ep. assert (i < length fits) by (apply nth_error_Some; congruence). lia. }
  exists p. split; [exact Ep|]. destruct (K i o a p Ei Ep) as (_ & Fin). assert (X : finished p <> None). { apply (Hn m Hm). rewrite H. apply nth_error_In in Ep. exact Ep. }
  destruct (finished p) as [r|] eqn:Er; [|congruence]. destruct (Fin r eq_refl) as [-> R]. split; [reflexivity|exact R].
Qed.
