(** C105: any number of fits at the same time, and a power cut in the middle of them. *)
From Coq Require Import String List Lia Arith.
From Verif Require Import PyBase MFs MOut MScript SOut SFit SPool PDemo PMpi PPool PPool2.
Import ListNotations.
Open Scope nat_scope.
Open Scope list_scope.

(** Whatever the schedule and wherever it stops: the directory that each fit writes to is as
    some number of steps of this fit alone leave it; a fit that has ended has ended as it does
    alone and left what it leaves alone; every other path is as before. *)
Theorem C105_as_if_alone (fits : list (oracle * fit_args)) s sched ps s' : independent fits s -> interleave_all sched (all_fits fits) s = (ps, s') ->
  length ps = length fits /\
  (forall i o a p, nth_error fits i = Some (o, a) -> nth_error ps i = Some p ->
    (exists k, forall q, region a q -> s' q = snd (steps k (fit_zpoly o a) s) q) /\
    forall r, finished p = Some r -> r = fst (run (fit_zpoly o a) s) /\ forall q, region a q -> s' q = snd (run (fit_zpoly o a) s) q) /\
  forall q, (forall f, In f fits -> ~ region (snd f) q /\ q <> base_of (snd f)) -> s' q = s q.
Proof. exact (pool fits s sched ps s'). Qed.
Print Assumptions C105_as_if_alone.

(** A schedule that never stops giving each of them its turn completes all of them. *)
Theorem C105_fair (fits : list (oracle * fit_args)) s f : independent fits s -> fair f (length fits) ->
  exists n, forall m, n <= m -> forall i o a, nth_error fits i = Some (o, a) -> exists p, nth_error (fst (interleave_all (first_turns f m) (all_fits fits) s)) i = Some p /\
    finished p = Some (fst (run (fit_zpoly o a) s)) /\ forall q, region a q -> snd (interleave_all (first_turns f m) (all_fits fits) s) q = snd (run (fit_zpoly o a) s) q.
Proof. exact (pool_fair fits s f). Qed.
Print Assumptions C105_fair.

(** A power cut that ends all of them at once: what was there before is unaltered, and each
    file of a fit that succeeds alone is as before, unfinished, or the final one. *)
Theorem C105_power_cut (fits : list (oracle * fit_args)) s sched ps s' : independent fits s -> (forall f, In f fits -> free_number (snd f) s) -> interleave_all sched (all_fits fits) s = (ps, s') ->
  file_tree s' /\ unaltered s s' /\
  forall o a sf, In (o, a) fits -> run (fit_zpoly o a) s = (Ok tt, sf) -> forall q, region a q -> s' q = s q \/ s' q = Some (File Partial) \/ s' q = sf q.
Proof. exact (power_cut fits s sched ps s'). Qed.
Print Assumptions C105_power_cut.

(** Fits of any number of observations with different names in one work directory are
    independent; in turn is a fair schedule. *)
Example C105_nonvacuous names N : NoDup names -> independent (map (fun nm => (demo_oracle, demo_args nm N)) names) demo_fs /\
  (forall f, In f (map (fun nm => (demo_oracle, demo_args nm N)) names) -> free_number (snd f) demo_fs) /\ (forall m, fair (fun k => Nat.modulo k m) m) /\
  NoDup ["obs"; "abs"; "third"]%string /\ forall nm, exists sf, run (fit_zpoly demo_oracle (demo_args nm N)) demo_fs = (Ok tt, sf).
Proof.
  intros ND. destruct (demo_pool names N ND) as [I Fr]. split; [exact I|]. split; [exact Fr|]. split.
  - intros m i n Hi. exists (n * m + i). split; [nia|]. rewrite Nat.add_comm, Nat.mod_add by lia. apply Nat.mod_small, Hi.
  - split; [repeat constructor; cbn; intuition discriminate|]. intros nm. apply demo_runs.
Qed.
