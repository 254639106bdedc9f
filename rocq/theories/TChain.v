(** C92: from the observations to the look-up table. *)
From Coq Require Import String Ascii List ZArith Lia Lra Permutation.
From Verif Require Import PyBase Num MMath MAperture MRad MCore MFs MOut MAct MAux SMath SAux SOut SFit MTab STab MScript SScript SAct SAct2 SLookup SChain.
From Verif Require Import PAct6 PAct7 PMpi2 PChain PChain2 PChain3.
Import ListNotations.
Open Scope R_scope.
Open Scope string_scope.
Open Scope list_scope.

(** C92. The fits of a set of observations (pyoof_effelsberg.py, one telescope) followed by create_lookup.py: the new table
    is the old one corrected by the gravity model of exactly the observations that count, with the optimizer's coefficients. *)
Theorem C92_table orc sc su cwd files stems s s1 k o runs old dir z s2 :
  file_tree s -> sized_answers orc -> sc_setups sc = [su] -> (1 <= ac_order o <= sc_order_max sc)%nat -> input_files cwd s files stems -> NoDup stems ->
  (forall stem t, In stem stems -> stem <> String "." t) -> no_runs (sc_work_dir sc) s ->
  (forall t, Permutation t (lk_sort k t)) -> ac_min o <= ac_max o -> s old = Some (File (Text (table_text z))) ->
  run (batch orc sc cwd files) s = (Ok tt, s1) -> glob_000 s1 (sc_work_dir sc ++ ["pyoof_out"]) runs ->
  run (create_lookup k o runs (sc_work_dir sc ++ ["pyoof_out"]) old dir) s1 = (Ok tt, s2) ->
  exists us g phases T z', NoDup us /\ us <> [] /\ (forall ob K, In (ob, K) us <-> counts orc sc su cwd s files (ac_order o) ob K) /\
    act_fit_grav (lk_solve k) o (map snd us) (map (fun u => Deg (ob_meanel (fst u))) us) = Ok g /\
    generate_phase_pr o g (map Deg [7; 10; 20; 30; 32; 40; 50; 60; 70; 80; 90]) true = Ok phases /\
    at_actuators (lk_spline k) o phases T /\
    s2 (dir ++ ["FEM_OOF_Table_" ^^ lk_today k ^^ ".dat"]) = Some (File (Text (table_text z'))) /\
    forall j a x, (j < 11)%nat -> (a < 96)%nat -> elem NaN T j a = Fin x -> rounded (Rmax (ac_min o) (Rmin (ac_max o) (IZR (z j a) - x))) (z' j a).
Proof. exact (fun H1 H2 H3 H4 H5 H6 H7 H8 H9 H10 H11 H12 H13 => chain_table orc sc su cwd files stems s s1 k o runs old dir z H1 H2 H3 H4 H5 H6 H7 H8 H12 H13 H9 H11 s2 H10). Qed.
Print Assumptions C92_table.
(** If the coefficients found for them follow a gravity law at three elevations at least, the table is corrected by that law. *)
Theorem C92_follows orc sc su cwd files stems s s1 k o runs old dir z s2 h :
  file_tree s -> sized_answers orc -> sc_setups sc = [su] -> (1 <= ac_order o <= sc_order_max sc)%nat -> input_files cwd s files stems -> NoDup stems ->
  (forall stem t, In stem stems -> stem <> String "." t) -> no_runs (sc_work_dir sc) s ->
  (forall t, Permutation t (lk_sort k t)) -> s old = Some (File (Text (table_text z))) ->
  exact_solver (lk_solve k) -> usable_act o -> 0 <= ac_sr o -> ac_sr o * sqrt 2 <= 73872 / 10000 ->
  (exists els, three_elevations els /\ forall e, In e els -> exists ob K, counts orc sc su cwd s files (ac_order o) ob K /\ e = Deg (ob_meanel ob)) ->
  (forall i, (i < ac_N_K o)%nat -> length (nth i h []) = 3%nat) ->
  (forall ob K i, counts orc sc su cwd s files (ac_order o) ob K -> (3 <= i < ac_N_K o)%nat -> grav_deformation (nth i h []) (Deg (ob_meanel ob)) = Ok (nth i K 0)) ->
  run (batch orc sc cwd files) s = (Ok tt, s1) -> glob_000 s1 (sc_work_dir sc ++ ["pyoof_out"]) runs ->
  run (create_lookup k o runs (sc_work_dir sc ++ ["pyoof_out"]) old dir) s1 = (Ok tt, s2) ->
  exists T z', law_at_actuators (lk_spline k) o h T /\ s2 (dir ++ ["FEM_OOF_Table_" ^^ lk_today k ^^ ".dat"]) = Some (File (Text (table_text z'))) /\
    forall j a x, (j < 11)%nat -> (a < 96)%nat -> elem NaN T j a = Fin x -> rounded (Rmax (ac_min o) (Rmin (ac_max o) (IZR (z j a) - x))) (z' j a).
Proof.
  exact (fun H1 H2 H3 H4 H5 H6 H7 H8 H9 H10 H11 H12 H13 H14 H15 H16 H17 H18 H19 =>
    chain_follows orc sc su cwd files stems s s1 k o runs old dir z H1 H2 H3 H4 H5 H6 H7 H8 H18 H19 H9 H10 s2 h H11 H12 H13 H14 H15 H16 H17).
Qed.
Print Assumptions C92_follows.
(** And both programs end. *)
Theorem C92_completes orc sc su cwd files stems il s k o old dir z :
  file_tree s -> sc_setups sc = [su] -> (1 <= ac_order o <= sc_order_max sc)%nat -> (ac_order o <= 5)%nat -> (2 <= ac_resolution o)%nat -> sc_illum sc = Ok il -> cooperative orc -> usable (sc_work_dir sc) s -> 0 < tel_pr (su_tel su) ->
  input_files cwd s files stems -> NoDup stems -> (forall stem t, In stem stems -> stem <> String "." t) -> no_runs (sc_work_dir sc) s ->
  (forall f, In f files -> exists ob d, observed cwd s f ob /\ fittable ob /\ ob_date ob = HStr d /\ lk_isot k d = true) ->
  (forall t, Permutation t (lk_sort k t)) -> ac_min o <= ac_max o -> 0 < ac_pr o -> s old = Some (File (Text (table_text z))) ->
  (exists ob K, counts orc sc su cwd s files (ac_order o) ob K) ->
  (forall us i, (forall ob K, In (ob, K) us -> counts orc sc su cwd s files (ac_order o) ob K) -> (i < ac_N_K o)%nat -> exists x,
     lk_solve k (residual_grav (map (fun u => nth i (snd u) 0) us) (map (fun u => Deg (ob_meanel (fst u))) us)) [1 / 10; 1 / 10; 1 / 10] = Ok x /\ length x = 3%nat) ->
  (forall x m, exists f, lk_spline k x x m = Ok f) ->
  ~ below (sc_work_dir sc ++ ["pyoof_out"]) dir -> (s dir = Some Dir \/ exists p c, dir = p ++ [c] /\ s p = Some Dir /\ s dir = None) ->
  (forall f, In f (lookup_files (lk_today k)) -> s (dir ++ [f]) <> Some Dir) ->
  exists s1, run (batch orc sc cwd files) s = (Ok tt, s1) /\ (exists runs, glob_000 s1 (sc_work_dir sc ++ ["pyoof_out"]) runs) /\
    forall runs, glob_000 s1 (sc_work_dir sc ++ ["pyoof_out"]) runs -> exists s2, run (create_lookup k o runs (sc_work_dir sc ++ ["pyoof_out"]) old dir) s1 = (Ok tt, s2).
Proof. exact (chain_completes orc sc su cwd files stems il s k o old dir z). Qed.
Print Assumptions C92_completes.
(** pyoof_effelsberg.py as it stands on three observations at 10, 50 and 80 degrees, then the look-up table of order 5. *)
Example C92_nonvacuous z : let s := survey z in let sc := batch_script ["w"] in let o := demo_act 5 3 in let k := survey_lookup in
  let count := counts survey_oracle sc survey_setup [] s script_inputs (ac_order o) in
  (exists s1 runs s2, run (batch survey_oracle sc [] script_inputs) s = (Ok tt, s1) /\ glob_000 s1 ["w"; "pyoof_out"] runs /\
     run (create_lookup k o runs ["w"; "pyoof_out"] ["old.dat"] ["new"]) s1 = (Ok tt, s2)) /\
  file_tree s /\ cooperative survey_oracle /\ sized_answers survey_oracle /\ sc_setups sc = [survey_setup] /\ (1 <= ac_order o <= sc_order_max sc)%nat /\
  input_files [] s script_inputs ["a"; "b"; "c"] /\ no_runs (sc_work_dir sc) s /\ (forall t, Permutation t (lk_sort k t)) /\ s ["old.dat"] = Some (File (Text (table_text z))) /\
  exact_solver (lk_solve k) /\ usable_act o /\ 0 <= ac_sr o /\ ac_sr o * sqrt 2 <= 73872 / 10000 /\
  (exists els, three_elevations els /\ forall e, In e els -> exists ob K, count ob K /\ e = Deg (ob_meanel ob)) /\
  (forall i, (i < ac_N_K o)%nat -> length (nth i constant_law []) = 3%nat) /\
  (forall ob K i, count ob K -> (3 <= i < ac_N_K o)%nat -> grav_deformation (nth i constant_law []) (Deg (ob_meanel ob)) = Ok (nth i K 0)) /\
  (forall us i, (forall ob K, In (ob, K) us -> count ob K) -> (i < ac_N_K o)%nat -> exists x,
     lk_solve k (residual_grav (map (fun u => nth i (snd u) 0) us) (map (fun u => Deg (ob_meanel (fst u))) us)) [1 / 10; 1 / 10; 1 / 10] = Ok x /\ length x = 3%nat).
Proof.
  cbv zeta. split.
  { destruct (survey_runs z) as (s1 & H1 & [runs G] & H2). destruct (H2 runs G) as [s2 H3]. exists s1, runs, s2. auto. }
  split; [apply survey_tree|]. split; [exact survey_cooperative|]. split; [exact (cooperative_sized _ survey_cooperative)|]. split; [reflexivity|]. split; [cbn; lia|].
  split; [apply survey_named|]. split; [apply survey_no_runs|]. split; [intros t; apply Permutation_refl|]. split; [reflexivity|]. split; [apply search_exact|]. split; [apply demo_usable|].
  split; [apply demo_sr|]. split; [apply demo_sr|]. split; [apply survey_three|]. split; [exact constant_length|]. split; [exact (constant_follows z)|]. exact (survey_solved z).
Qed.
