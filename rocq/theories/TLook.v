(** C117: what can be read of a run that is still in progress, or was killed, is final. *)
From Coq Require Import String List.
From Verif Require Import PyBase Num MTel MMath MAperture MFs MOut MScript MAux MPlot MTab SOut SFit SPlot SPool SLook PDemo PDemo2 PPool PPool2 PLook PLook2 PLook3 PLook4 PLook5.
Import ListNotations.
Open Scope string_scope.
Open Scope list_scope.

(** After any number of steps of a fit: if the table of any directories and any order can
    be made, it is the table that can be made once the fit has ended. *)
Theorem C117_table isot dirs n orc a s sf k x : file_tree s -> free_number a s -> run (fit_zpoly orc a) s = (Ok tt, sf) ->
  fst (run (table_pyoof_out isot dirs n) (snd (steps k (fit_zpoly orc a) s))) = Ok x -> fst (run (table_pyoof_out isot dirs n) sf) = Ok x.
Proof. exact (table_cut isot dirs n orc a s sf k x). Qed.
Print Assumptions C117_table.
(** The same for the figures. *)
Theorem C117_figures gd pt strict d n illum tel g plim orc a s sf k figs : file_tree s -> free_number a s -> run (fit_zpoly orc a) s = (Ok tt, sf) ->
  fst (run (draw_fit_path gd pt strict d n illum tel g plim false) (snd (steps k (fit_zpoly orc a) s))) = Ok figs ->
  fst (run (draw_fit_path gd pt strict d n illum tel g plim false) sf) = Ok figs.
Proof. exact (draw_cut gd pt strict d n illum tel g plim orc a s sf k figs). Qed.
Print Assumptions C117_figures.
(** And with any number of fits in progress, under any schedule: s1 is any moment of
    them, s2 the end of all of them under any schedule. *)
Theorem C117_pool_table isot dirs n x (fits : list (oracle * fit_args)) s sched ps s1 sched' ps' s2 :
  independent fits s -> (forall f, In f fits -> free_number (snd f) s /\ s (base_of (snd f)) = Some Dir) ->
  (forall o a, In (o, a) fits -> exists sf, run (fit_zpoly o a) s = (Ok tt, sf)) ->
  interleave_all sched (all_fits fits) s = (ps, s1) -> interleave_all sched' (all_fits fits) s = (ps', s2) -> (forall p, In p ps' -> finished p <> None) ->
  fst (run (table_pyoof_out isot dirs n) s1) = Ok x -> fst (run (table_pyoof_out isot dirs n) s2) = Ok x.
Proof.
  intros Hi Hf Hr H1 H2 Hp. apply (proj2 (careful_table isot dirs n)).
  exact (agree_pool fits s sched ps s1 sched' ps' s2 Hi (fun f I => proj1 (Hf f I)) (fun f I => proj2 (Hf f I)) Hr H1 H2 Hp).
Qed.
Print Assumptions C117_pool_table.
Theorem C117_pool_figures gd pt strict d n illum tel g plim figs (fits : list (oracle * fit_args)) s sched ps s1 sched' ps' s2 :
  independent fits s -> (forall f, In f fits -> free_number (snd f) s /\ s (base_of (snd f)) = Some Dir) ->
  (forall o a, In (o, a) fits -> exists sf, run (fit_zpoly o a) s = (Ok tt, sf)) ->
  interleave_all sched (all_fits fits) s = (ps, s1) -> interleave_all sched' (all_fits fits) s = (ps', s2) -> (forall p, In p ps' -> finished p <> None) ->
  fst (run (draw_fit_path gd pt strict d n illum tel g plim false) s1) = Ok figs -> fst (run (draw_fit_path gd pt strict d n illum tel g plim false) s2) = Ok figs.
Proof.
  intros Hi Hf Hr H1 H2 Hp. apply draw_careful; [exact (pool_tree fits s sched' ps' s2 Hi (fun f I => proj1 (Hf f I)) H2)|].
  exact (agree_pool fits s sched ps s1 sched' ps' s2 Hi (fun f I => proj1 (Hf f I)) (fun f I => proj2 (Hf f I)) Hr H1 H2 Hp).
Qed.
Print Assumptions C117_pool_figures.
(** Neither does it mislead if the first rows of an unfinished file can be read already:
    [seen] is any state in which unfinished files show any number of their first rows. *)
Theorem C117_rows_table isot dirs n orc a s sf k seen x : file_tree s -> free_number a s -> run (fit_zpoly orc a) s = (Ok tt, sf) ->
  glimpse (snd (steps k (fit_zpoly orc a) s)) sf seen -> fst (run (table_pyoof_out isot dirs n) seen) = Ok x -> fst (run (table_pyoof_out isot dirs n) sf) = Ok x.
Proof. intros W F R G. exact (cut_table orc a s sf seen k W F R G isot dirs n x). Qed.
Print Assumptions C117_rows_table.
Theorem C117_rows_figures gd pt strict d n illum tel g plim orc a s sf k seen figs : file_tree s -> free_number a s -> run (fit_zpoly orc a) s = (Ok tt, sf) ->
  (forall r J p cov cor, or_comat orc r J p = Ok (cov, cor) -> length cor = p) ->
  glimpse (snd (steps k (fit_zpoly orc a) s)) sf seen ->
  fst (run (draw_fit_path gd pt strict d n illum tel g plim false) seen) = Ok figs -> fst (run (draw_fit_path gd pt strict d n illum tel g plim false) sf) = Ok figs.
Proof. intros W F R CM G. exact (cut_figures orc a s sf seen k W F R G CM gd pt strict d n illum tel g plim figs). Qed.
Print Assumptions C117_rows_figures.
(** Each number of rows of the phase of each order can be seen; the table then raises. *)
Theorem C117_rows_seen isot orc a s sf n q : file_tree s -> free_number a s -> run (fit_zpoly orc a) s = (Ok tt, sf) -> (1 <= n <= fa_order_max a)%nat -> (q < 1000)%nat ->
  exists k seen j h m, glimpse (snd (steps k (fit_zpoly orc a) s)) sf seen /\ s (numbered (fit_dir a) (fa_name a) j) = None /\
    let d := numbered (fit_dir a) (fa_name a) j in
    csv_file sf d ("phase_n" ^^ dec n ^^ ".csv") h (A2 m) /\ length m = 1000%nat /\ csv_file seen d ("phase_n" ^^ dec n ^^ ".csv") h (A2 (firstn q m)) /\
    fst (run (table_pyoof_out isot [d] n) seen) = Err IndexError.
Proof. exact (rows_seen isot orc a s sf n q). Qed.
Print Assumptions C117_rows_seen.
(** There is something to read early: for each N, a fit of more orders has a moment at
    which the table of the orders up to N can be made, and is that of the finished run,
    while each later order is reported missing. *)
Theorem C117_early isot orc a s sf c N : file_tree s -> free_number a s -> run (fit_zpoly orc a) s = (Ok tt, sf) -> configured a s c -> isot (fa_date a) = true ->
  (1 <= N <= fa_order_max a)%nat ->
  exists k j, (j <= 100)%nat /\ s (numbered (fit_dir a) (fa_name a) j) = None /\
    let d := numbered (fit_dir a) (fa_name a) j in let st := snd (steps k (fit_zpoly orc a) s) in
    (forall n, (1 <= n <= N)%nat -> exists r, fst (run (table_pyoof_out isot [d] n) st) = Ok (n, [r]) /\ fst (run (table_pyoof_out isot [d] n) sf) = Ok (n, [r])) /\
    forall n, (N < n)%nat -> fst (run (table_pyoof_out isot [d] n) st) = Err FileNotFoundError.
Proof. exact (early_orders isot orc a s sf c N). Qed.
Print Assumptions C117_early.
(** Fits of observations with different names meet the hypotheses for a pool, a fair
    schedule brings them to their ends, and during a fit of three orders there is a moment
    at which the six figures of the first can be drawn. *)
Example C117_nonvacuous names N : NoDup names ->
  (let fits := map (fun nm => (demo_oracle, demo_args nm N)) names in independent fits demo_fs /\
    (forall f, In f fits -> free_number (snd f) demo_fs /\ demo_fs (base_of (snd f)) = Some Dir) /\
    (forall o a, In (o, a) fits -> exists sf, run (fit_zpoly o a) demo_fs = (Ok tt, sf)) /\
    exists sched, forall p, In p (fst (interleave_all sched (all_fits fits) demo_fs)) -> finished p <> None) /\
  NoDup ["obs"; "abs"; "third"] /\ (forall r J p cov cor, or_comat plot_oracle r J p = Ok (cov, cor) -> length cor = p) /\
  exists k j sf figs, run (fit_zpoly plot_oracle (plot_args 3)) demo_fs = (Ok tt, sf) /\ free_number (plot_args 3) demo_fs /\
    let st := snd (steps k (fit_zpoly plot_oracle (plot_args 3)) demo_fs) in st <> sf /\
    fst (run (draw_fit_path flat_griddata plain_printers true (numbered ["w"] "obs" j) 1 illum_parabolic demo_tel degrees_unit None false) st) = Ok figs /\ length figs = 6%nat.
Proof.
  intros ND. split; [|split; [|split; [intros r J p cov cor X; inversion X; apply repeat_length|exact draw_early]]].
  - cbv zeta. destruct (demo_pool names N ND) as [Hi Hf]. split; [exact Hi|]. split; [|split].
    + intros f If. split; [exact (Hf f If)|]. apply in_map_iff in If as (nm & <- & _). reflexivity.
    + intros o a If. apply in_map_iff in If as (nm & E & _). injection E as <- <-. apply demo_runs.
    + exact (pool_ends _ demo_fs Hi).
  - repeat constructor; cbn; intuition discriminate.
Qed.
