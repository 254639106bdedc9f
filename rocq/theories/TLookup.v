(** Property theorems C85-C87: scripts/create_lookup.py. *)
From Coq Require Import String Ascii List ZArith Lra Lia.
From Verif Require Import PyBase Num MMath MAperture MFs MOut MAct MTab MScript SOut SFit SAct SAct2 STab SLookup PFs PCrash PAct6 PAct7 PLookup PLookup2 PLookup3.
Import ListNotations.
Open Scope R_scope.
Open Scope string_scope.
Open Scope list_scope.

(** C85. The new look-up table is the old one minus the modelled displacements, limited and rounded. *)
Theorem C85_new_table k o runs base old dir s s' z : ac_min o <= ac_max o -> s old = Some (File (Text (table_text z))) ->
  run (create_lookup k o runs base old dir) s = (Ok tt, s') ->
  exists tab rows Ks g phases T z',
    fst (run (table_pyoof_out (lk_isot k) runs (ac_order o)) s) = Ok (ac_order o, tab) /\ rows = filter selected_row (lk_sort k tab) /\ rows <> [] /\
    Forall2 (row_coeffs s base (ac_order o) (ac_N_K o)) rows Ks /\
    act_fit_grav (lk_solve k) o Ks (elevations rows) = Ok g /\
    generate_phase_pr o g (map Deg [7; 10; 20; 30; 32; 40; 50; 60; 70; 80; 90]) true = Ok phases /\
    at_actuators (lk_spline k) o phases T /\
    s' (dir ++ ["FEM_OOF_Table_" ^^ lk_today k ^^ ".dat"]) = Some (File (Text (table_text z'))) /\
    forall j a x, (j < 11)%nat -> (a < 96)%nat -> elem NaN T j a = Fin x -> rounded (Rmax (ac_min o) (Rmin (ac_max o) (IZR (z j a) - x))) (z' j a).
Proof. exact (create_table k o runs base old dir s s' z). Qed.
Print Assumptions C85_new_table.
(** The rows used are those with a signal-to-noise ratio above 200 that are no offset observations. *)
Theorem C85_selection r : selected_row r = true <-> used r.
Proof. exact (selected_iff r). Qed.
Print Assumptions C85_selection.
Example C85_nonvacuous : exists s', run (create_lookup (sky_oracles 1) (demo_act 2 3) sky_runs ["out"] ["old.dat"] ["new"]) (sky 1 (fun j a => Z.of_nat (j + a))) = (Ok tt, s').
Proof. exact (sky_runs_ok 1 _). Qed.

(** C86. Deformations that follow a gravity law at three elevations at least: the table is corrected by that law. *)
Theorem C86_follows k o runs base old dir s s' z tab h : exact_solver (lk_solve k) -> usable_act o -> (1 <= ac_order o)%nat -> 0 <= ac_sr o -> ac_sr o * sqrt 2 <= 73872 / 10000 ->
  s old = Some (File (Text (table_text z))) ->
  fst (run (table_pyoof_out (lk_isot k) runs (ac_order o)) s) = Ok (ac_order o, tab) ->
  three_elevations (elevations (filter selected_row (lk_sort k tab))) ->
  (forall i, (i < ac_N_K o)%nat -> length (nth i h []) = 3%nat) ->
  (forall r K i, In r (filter selected_row (lk_sort k tab)) -> row_coeffs s base (ac_order o) (ac_N_K o) r K -> (3 <= i < ac_N_K o)%nat ->
     grav_deformation (nth i h []) (Deg (tr_meanel r)) = Ok (nth i K 0)) ->
  run (create_lookup k o runs base old dir) s = (Ok tt, s') ->
  exists T z', law_at_actuators (lk_spline k) o h T /\ s' (dir ++ ["FEM_OOF_Table_" ^^ lk_today k ^^ ".dat"]) = Some (File (Text (table_text z'))) /\
    forall j a x, (j < 11)%nat -> (a < 96)%nat -> elem NaN T j a = Fin x -> rounded (Rmax (ac_min o) (Rmin (ac_max o) (IZR (z j a) - x))) (z' j a).
Proof. exact (follows_table k o runs base old dir s s' z tab h). Qed.
Print Assumptions C86_follows.
(** No deformation but piston and tilt: the new table is the old one. *)
Theorem C86_no_deformation k o runs base old dir s s' z tab : exact_solver (lk_solve k) -> usable_act o -> (1 <= ac_order o)%nat -> (0 < ac_resolution o)%nat ->
  0 <= ac_sr o -> ac_sr o * sqrt 2 <= 73872 / 10000 -> ac_min o <= 0 <= ac_max o -> zero_exact (lk_spline k) -> s old = Some (File (Text (table_text z))) ->
  (forall j a, (j < 11)%nat -> (a < 96)%nat -> ac_min o <= IZR (z j a) <= ac_max o) ->
  fst (run (table_pyoof_out (lk_isot k) runs (ac_order o)) s) = Ok (ac_order o, tab) ->
  three_elevations (elevations (filter selected_row (lk_sort k tab))) ->
  (forall r K i, In r (filter selected_row (lk_sort k tab)) -> row_coeffs s base (ac_order o) (ac_N_K o) r K -> (3 <= i < ac_N_K o)%nat -> nth i K 0 = 0) ->
  run (create_lookup k o runs base old dir) s = (Ok tt, s') ->
  s' (dir ++ ["FEM_OOF_Table_" ^^ lk_today k ^^ ".dat"]) = Some (File (Text (table_text z))).
Proof. exact (zero_table k o runs base old dir s s' z tab). Qed.
Print Assumptions C86_no_deformation.
Example C86_nonvacuous : forall q, exists s' tab, let k := sky_oracles q in let o := demo_act 2 3 in let s := sky q (fun j a => Z.of_nat (j + a)) in
  run (create_lookup k o sky_runs ["out"] ["old.dat"] ["new"]) s = (Ok tt, s') /\ exact_solver (lk_solve k) /\ usable_act o /\ (1 <= ac_order o)%nat /\ (0 < ac_resolution o)%nat /\
  0 <= ac_sr o /\ ac_sr o * sqrt 2 <= 73872 / 10000 /\ ac_min o <= 0 <= ac_max o /\ zero_exact (lk_spline k) /\
  fst (run (table_pyoof_out (lk_isot k) sky_runs (ac_order o)) s) = Ok (ac_order o, tab) /\ three_elevations (elevations (filter selected_row (lk_sort k tab))) /\
  forall r K, In r (filter selected_row (lk_sort k tab)) -> (row_coeffs s ["out"] (ac_order o) (ac_N_K o) r K <-> K = [0; 0; 0; 0; q; 0]).
Proof.
  intros q. destruct (sky_runs_ok q (fun j a => Z.of_nat (j + a))) as [s' H]. destruct (sky_table q (fun j a => Z.of_nat (j + a))) as (tab & E & _ & El & En & Fi).
  exists s', tab. cbv zeta. split; [exact H|]. split; [apply search_exact|]. split; [apply demo_usable|]. split; [cbn; lia|]. split; [cbn; lia|].
  split; [apply demo_sr|]. split; [apply demo_sr|]. split; [cbn; lra|]. split; [apply sky_zero_exact|]. split; [exact E|].
  change (lk_sort (sky_oracles q) tab) with tab. rewrite Fi, El. split; [exact demo_three|]. intros r K Hr. apply sky_coeffs. rewrite <- En. apply in_map. exact Hr.
Qed.

(** C87. At every step, also if it is stopped there, only the new table and the four figures have been written and only directories above them created. *)
Theorem C87_untouched k o runs base old dir s n q :
  ~ (exists f, In f (lookup_files (lk_today k)) /\ q = dir ++ [f]) -> s q <> None \/ ~ above q dir ->
  snd (steps n (create_lookup k o runs base old dir) s) q = s q.
Proof. intros H1 H2. exact (proj1 (always_steps _ _ s n (only_always _ _ _ s (create_only k o runs base old dir))) q H1 H2). Qed.
Print Assumptions C87_untouched.
(** When it has ended, the new table and the four figures are there, under five different names. *)
Theorem C87_written k o runs base old dir s s' z : ac_min o <= ac_max o -> s old = Some (File (Text (table_text z))) ->
  run (create_lookup k o runs base old dir) s = (Ok tt, s') ->
  NoDup (lookup_files (lk_today k)) /\ (exists z', s' (dir ++ [hd "" (lookup_files (lk_today k))]) = Some (File (Text (table_text z')))) /\
  forall f, In f (tl (lookup_files (lk_today k))) -> s' (dir ++ [f]) = Some (File Pdf).
Proof. exact (files_written k o runs base old dir s s' z). Qed.
Print Assumptions C87_written.
(** It ends when the old table, the runs and their coefficients are there, the optimiser and the spline return, and the files can be written. *)
Theorem C87_completes k o runs base old dir s z tab : ac_min o <= ac_max o -> (1 <= ac_order o <= 5)%nat -> (2 <= ac_resolution o)%nat -> 0 < ac_pr o ->
  s old = Some (File (Text (table_text z))) -> Forall2 (summarises s (ac_order o)) runs tab -> (forall r, In r tab -> lk_isot k (tr_date r) = true) ->
  let rows := filter selected_row (lk_sort k tab) in rows <> [] ->
  (forall r, In r rows -> exists K, row_coeffs s base (ac_order o) (ac_N_K o) r K) ->
  (forall i col, (i < ac_N_K o)%nat -> Forall2 (fun r x => exists K, row_coeffs s base (ac_order o) (ac_N_K o) r K /\ x = nth i K 0) rows col ->
     exists x, lk_solve k (residual_grav col (elevations rows)) [1 / 10; 1 / 10; 1 / 10] = Ok x /\ length x = 3%nat) ->
  (forall x m, exists f, lk_spline k x x m = Ok f) ->
  (s dir = Some Dir \/ exists p c, dir = p ++ [c] /\ s p = Some Dir /\ s dir = None) ->
  (forall f, In f (lookup_files (lk_today k)) -> s (dir ++ [f]) <> Some Dir) ->
  exists s', run (create_lookup k o runs base old dir) s = (Ok tt, s').
Proof. exact (completes k o runs base old dir s z tab). Qed.
Print Assumptions C87_completes.
Example C87_nonvacuous : exists s', run (create_lookup (sky_oracles 1) (demo_act 2 3) sky_runs ["out"] ["old.dat"] ["new"]) (sky 1 (fun j a => Z.of_nat (j + a))) = (Ok tt, s') /\
  sky 1 (fun j a => Z.of_nat (j + a)) ["new"; "FEM_OOF_Table_201117.dat"] = None /\ s' ["new"; "FEM_OOF_Table_201117.dat"] <> None /\
  ~ (exists f, In f (lookup_files (lk_today (sky_oracles 1))) /\ ["old.dat"] = ["new"] ++ [f]) /\ sky 1 (fun j a => Z.of_nat (j + a)) ["old.dat"] <> None.
Proof.
  destruct (sky_runs_ok 1 (fun j a => Z.of_nat (j + a))) as [s' H]. exists s'. split; [exact H|]. split; [reflexivity|]. split; [|split; [intros (f & _ & E); discriminate E|discriminate]].
  assert (L : ac_min (demo_act 2 3) <= ac_max (demo_act 2 3)) by (cbn; lra).
  destruct (C85_new_table _ _ _ _ _ _ _ _ (fun j a => Z.of_nat (j + a)) L eq_refl H) as (tab & rows & Ks & g & ph & T & z' & _ & _ & _ & _ & _ & _ & _ & E & _). intros X.
  change (s' (["new"] ++ ["FEM_OOF_Table_" ^^ lk_today (sky_oracles 1) ^^ ".dat"]) = None) in X. rewrite E in X. discriminate X.
Qed.
