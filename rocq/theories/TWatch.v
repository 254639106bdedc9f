(** C107: looking at earlier results, and at observations, while any number of fits is running. *)
From Coq Require Import String List Lia Arith.
From Verif Require Import PyBase Num MTel MMath MAperture MFs MOut MScript MAux MPlot MTab SOut SFit SPlot SPool SWatch PDemo PDemo2 PWatch PWatch2.
Import ListNotations.
Open Scope nat_scope.
Open Scope list_scope.

(** The table of runs that could be tabulated before the fits began: it ends with the same
    rows whatever the schedule, it ends once it has had enough turns, and the fits do what
    they do without it. *)
Theorem C107_table isot dirs n x (fits : list (oracle * fit_args)) s : fst (run (table_pyoof_out isot dirs n) s) = Ok x ->
  independent fits s -> (forall f, In f fits -> free_number (snd f) s) ->
  (forall sched r ps s', beside sched (table_pyoof_out isot dirs n) (all_fits fits) s = (r, ps, s') ->
    interleave_all (other_turns sched) (all_fits fits) s = (ps, s') /\ forall y, finished r = Some y -> y = Ok x) /\
  exists k, forall sched r ps s', k <= own_turns sched -> beside sched (table_pyoof_out isot dirs n) (all_fits fits) s = (r, ps, s') -> finished r = Some (Ok x).
Proof. exact (watch _ x fits s (looks_table isot dirs n s)). Qed.
Print Assumptions C107_table.

(** The figures of a run that has its directory plots, when they are not stored. *)
Theorem C107_figures gd pt strict d n illum tel g plim figs (fits : list (oracle * fit_args)) s : s (d ++ ["plots"%string]) <> None ->
  fst (run (draw_fit_path gd pt strict d n illum tel g plim false) s) = Ok figs ->
  independent fits s -> (forall f, In f fits -> free_number (snd f) s) ->
  (forall sched r ps s', beside sched (draw_fit_path gd pt strict d n illum tel g plim false) (all_fits fits) s = (r, ps, s') ->
    interleave_all (other_turns sched) (all_fits fits) s = (ps, s') /\ forall y, finished r = Some y -> y = Ok figs) /\
  exists k, forall sched r ps s', k <= own_turns sched -> beside sched (draw_fit_path gd pt strict d n illum tel g plim false) (all_fits fits) s = (r, ps, s') -> finished r = Some (Ok figs).
Proof. intros P. exact (watch _ figs fits s (looks_draw gd pt strict d n illum tel g plim s P)). Qed.
Print Assumptions C107_figures.

(** The observation in a FITS file. *)
Theorem C107_observation cwd f ob (fits : list (oracle * fit_args)) s look : look = extract_data_pyoof cwd f \/ look = extract_data_effelsberg cwd f ->
  fst (run look s) = Ok ob -> independent fits s -> (forall f, In f fits -> free_number (snd f) s) ->
  (forall sched r ps s', beside sched look (all_fits fits) s = (r, ps, s') ->
    interleave_all (other_turns sched) (all_fits fits) s = (ps, s') /\ forall y, finished r = Some y -> y = Ok ob) /\
  exists k, forall sched r ps s', k <= own_turns sched -> beside sched look (all_fits fits) s = (r, ps, s') -> finished r = Some (Ok ob).
Proof. intros [-> | ->]; [exact (watch _ ob fits s (looks_pyoof cwd f s))|exact (watch _ ob fits s (looks_effelsberg cwd f s))]. Qed.
Print Assumptions C107_observation.

(** A finished run of which the table and the figures can be made, and three more fits, one of
    them of the same observation. *)
Example C107_nonvacuous : exists s', run (fit_zpoly plot_oracle (plot_args 3)) demo_fs = (Ok tt, s') /\ s' (numbered ["w"%string] "obs" 0 ++ ["plots"%string]) <> None /\
  (exists r, fst (run (table_pyoof_out (fun _ => true) [numbered ["w"%string] "obs" 0] 3) s') = Ok (3, [r])) /\
  (exists figs, fst (run (draw_fit_path flat_griddata plain_printers true (numbered ["w"%string] "obs" 0) 3 illum_parabolic demo_tel degrees_unit None false) s') = Ok figs /\ length figs = 5) /\
  forall N, let fits := map (fun nm => (demo_oracle, demo_args nm N)) ["obs"; "abs"; "third"]%string in independent fits s' /\ forall f, In f fits -> free_number (snd f) s'.
Proof. exact seen_all. Qed.
