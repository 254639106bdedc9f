(** Property theorems C80-C84: the programs in /repo/scripts. *)
From Coq Require Import String Ascii List Lra Lia.
From Verif Require Import PyBase Num MMath SMath MAperture MTel MRad MFs MAct MAux MOut MSim MTab MPlot MCore MScript SAux SSim SFit SOut SCore SAct SScript PDemo PDemo2 PSim PSim3 PScript PMpi PMpi2 PSimScript.
From Coquelicot Require Import Complex.
Import ListNotations.
Open Scope R_scope.
Open Scope string_scope.
Open Scope list_scope.

(** C80. A batch that ends has stored every observation with every telescope. *)
Theorem C80_all_stored orc sc cwd files stems s s' : file_tree s -> (1 <= sc_order_max sc)%nat -> input_files cwd s files stems -> room sc stems s ->
  run (batch orc sc cwd files) s = (Ok tt, s') -> all_stored orc sc cwd files s s'.
Proof. exact (batch_all orc sc cwd files stems s s'). Qed.
Print Assumptions C80_all_stored.
(** And it ends. *)
Theorem C80_completes orc sc cwd files stems il s : file_tree s -> (1 <= sc_order_max sc)%nat -> sc_illum sc = Ok il -> cooperative orc ->
  usable (sc_work_dir sc) s -> (forall su, In su (sc_setups sc) -> 0 < tel_pr (su_tel su)) -> input_files cwd s files stems -> room sc stems s ->
  (forall f, In f files -> exists ob, observed cwd s f ob /\ fittable ob) ->
  exists s', run (batch orc sc cwd files) s = (Ok tt, s').
Proof. exact (batch_completes orc sc cwd files stems il s). Qed.
Print Assumptions C80_completes.
(** pyoof_effelsberg.py as it stands, on three files. *)
Example C80_nonvacuous : exists s', run (batch demo_oracle (batch_script ["w"]) [] script_inputs) script_fs = (Ok tt, s') /\
  file_tree script_fs /\ input_files [] script_fs script_inputs ["a"; "b"; "c"] /\ room (batch_script ["w"]) ["a"; "b"; "c"] script_fs /\
  (exists ob, observed [] script_fs "d/b.fits" ob /\ ob_name ob = "b").
Proof.
  assert (ND : NoDup ["a"; "b"; "c"]) by (repeat constructor; cbn; intuition discriminate).
  assert (HR : room (batch_script ["w"]) ["a"; "b"; "c"] script_fs) by (apply script_room; [reflexivity|exact ND|cbn; lia]).
  destruct (C80_completes demo_oracle (batch_script ["w"]) [] script_inputs ["a"; "b"; "c"] illum_parabolic script_fs script_tree ltac:(cbn; lia) eq_refl demo_cooperative
    script_usable ltac:(intros su [<-|[]]; cbn; lra) script_named HR script_observed) as [s' H].
  exists s'. split; [exact H|]. split; [exact script_tree|]. split; [exact script_named|]. split; [exact HR|]. eexists. split; reflexivity.
Qed.

(** C81. The batch divided over processes: every file goes to one process, the loads differ by at most one. *)
Theorem C81_division {A} (files : list A) size : (0 < size)%nat ->
  length (array_split files size) = size /\ concat (array_split files size) = files /\
  forall a b, In a (array_split files size) -> In b (array_split files size) -> (length a <= S (length b))%nat.
Proof. exact (fun H => conj (split_length files size H) (conj (split_concat files size H) (fun a b => split_even files size a b H))). Qed.
Print Assumptions C81_division.
(** Under every schedule, stopped at any point: a process that has ended has the
    outcome of its share run alone, and the directories of its names are those
    of that run; only directories of these names and pyoof_out itself are new. *)
Theorem C81_as_if_alone orc sc cwd files stems size s : (0 < size)%nat -> file_tree s -> usable (sc_work_dir sc) s -> (1 <= sc_order_max sc)%nat ->
  input_files cwd s files stems -> (forall f, In f files -> ~ below (sc_work_dir sc ++ ["pyoof_out"]) (resolve cwd f)) -> room sc stems s -> NoDup stems ->
  forall sched ps s', interleave_all sched (mpi_ranks orc sc cwd files size) s = (ps, s') ->
  length ps = size /\
  (forall q, (forall name, In name stems -> ~ name_region (sc_work_dir sc) name q) -> q <> sc_work_dir sc ++ ["pyoof_out"] -> s' q = s q) /\
  (s' (sc_work_dir sc ++ ["pyoof_out"]) = s (sc_work_dir sc ++ ["pyoof_out"]) \/
   s (sc_work_dir sc ++ ["pyoof_out"]) = None /\ s' (sc_work_dir sc ++ ["pyoof_out"]) = Some Dir) /\
  forall i p r, nth_error ps i = Some p -> finished p = Some r ->
    r = fst (run (batch orc sc cwd (nth i (array_split files size) [])) s) /\
    forall name q, In name (nth i (array_split stems size) []) -> name_region (sc_work_dir sc) name q ->
      s' q = snd (run (batch orc sc cwd (nth i (array_split files size) [])) s) q.
Proof. exact (mpi_solo orc sc cwd files stems size s). Qed.
Print Assumptions C81_as_if_alone.
(** When all processes have ended well, everything is stored. *)
Theorem C81_all_stored orc sc cwd files stems size s sched ps s' :
  (0 < size)%nat -> file_tree s -> usable (sc_work_dir sc) s -> (1 <= sc_order_max sc)%nat -> sc_setups sc <> [] -> files <> [] -> input_files cwd s files stems ->
  (forall f, In f files -> ~ below (sc_work_dir sc ++ ["pyoof_out"]) (resolve cwd f)) -> room sc stems s -> NoDup stems ->
  interleave_all sched (mpi_ranks orc sc cwd files size) s = (ps, s') -> (forall p, In p ps -> finished p = Some (Ok tt)) ->
  all_stored orc sc cwd files s s'.
Proof. exact (mpi_all orc sc cwd files stems size s sched ps s'). Qed.
Print Assumptions C81_all_stored.
(** No schedule leads to a dead end: every one can be continued until all processes have ended well. *)
Theorem C81_completes orc sc cwd files stems size il s sched :
  (0 < size)%nat -> file_tree s -> usable (sc_work_dir sc) s -> (1 <= sc_order_max sc)%nat -> sc_setups sc <> [] -> files <> [] -> input_files cwd s files stems ->
  (forall f, In f files -> ~ below (sc_work_dir sc ++ ["pyoof_out"]) (resolve cwd f)) -> room sc stems s -> NoDup stems ->
  sc_illum sc = Ok il -> cooperative orc -> (forall su, In su (sc_setups sc) -> 0 < tel_pr (su_tel su)) ->
  (forall f, In f files -> exists ob, observed cwd s f ob /\ fittable ob) ->
  exists more ps s', interleave_all (sched ++ more) (mpi_ranks orc sc cwd files size) s = (ps, s') /\
    length ps = size /\ (forall p, In p ps -> finished p = Some (Ok tt)) /\ all_stored orc sc cwd files s s'.
Proof. exact (mpi_completes orc sc cwd files stems size il s sched). Qed.
Print Assumptions C81_completes.
(** pyoof_effelsberg_mpi.py with an illumination that exists, on two processes. *)
Definition repaired (w : path) : script := {| sc_illum := Ok illum_parabolic; sc_illum_name := "illum_parabolic";
  sc_setups := sc_setups (mpi_script w); sc_order_max := sc_order_max (mpi_script w); sc_work_dir := w |}.
Example C81_nonvacuous : exists more ps s', interleave_all ([0; 1; 1; 0]%nat ++ more) (mpi_ranks demo_oracle (repaired ["w"]) [] script_inputs 2) script_fs = (ps, s') /\
  length ps = 2%nat /\ (forall p, In p ps -> finished p = Some (Ok tt)) /\ all_stored demo_oracle (repaired ["w"]) [] script_inputs script_fs s'.
Proof.
  assert (ND : NoDup ["a"; "b"; "c"]) by (repeat constructor; cbn; intuition discriminate).
  apply (C81_completes demo_oracle (repaired ["w"]) [] script_inputs ["a"; "b"; "c"] 2 illum_parabolic script_fs).
  - lia.
  - exact script_tree.
  - exact script_usable.
  - cbn; lia.
  - discriminate.
  - discriminate.
  - exact script_named.
  - intros f [<-|[<-|[<-|[]]]] [t E]; cbn in E; discriminate E.
  - apply script_room; [reflexivity|exact ND|cbn; lia].
  - exact ND.
  - reflexivity.
  - exact demo_cooperative.
  - intros su H. cbn in H. repeat (destruct H as [<-|H]; [cbn; lra|]). destruct H.
  - exact script_observed.
Qed.

(** C82. pyoof_effelsberg_mpi.py as it stands stops at the first observation, before anything is written. *)
Theorem C82_mpi_script_refuted orc w cwd f files s ob : observed cwd s f ob -> run (batch orc (mpi_script w) cwd (f :: files)) s = (Err AttributeError, s).
Proof. exact (mpi_as_written orc w cwd f files s ob). Qed.
Print Assumptions C82_mpi_script_refuted.
Example C82_nonvacuous : exists ob, observed [] script_fs "d/b.fits" ob.
Proof. eexists. reflexivity. Qed.

(** C83. pyoof_simulate_data.py in a directory without earlier simulations shows the simulation it has made. *)
Theorem C83_shows_simulation orc gd fmt a s ob fig s' : physical a -> file_tree s -> s (generated (si_work_dir a) 0) = None ->
  run (simulate_script orc gd fmt a) s = (Ok (ob, fig), s') ->
  exists z0 z1 z2 rest u F0 F1 F2 i0 k x y, si_d_z a = z0 :: z1 :: z2 :: rest /\ beams a z0 z1 z2 u F0 F1 F2 /\ window u (half_width a) i0 k /\
    ob_name ob = "test000" /\ ob_wavel ob = si_wavel a /\ ob_d_z ob = [z0; z1; z2] /\
    let c i F := sim_columns orc (si_noise a) i u F i0 k in
    ob_beam ob = [fst (fst (c 0%nat F0)); fst (fst (c 1%nat F1)); fst (fst (c 2%nat F2))] /\
    map (map Fin) x = [snd (fst (c 0%nat F0)); snd (fst (c 1%nat F1)); snd (fst (c 2%nat F2))] /\
    map (map Fin) y = [snd (c 0%nat F0); snd (c 1%nat F1); snd (c 2%nat F2)] /\
    plot_beam_data gd fmt x y (ob_beam ob) [z0; z1; z2] 256 degree_unit "test000" false = Ok fig.
Proof. rewrite <- limit_eq. exact (sim_script_fresh orc gd fmt a s ob fig s'). Qed.
Print Assumptions C83_shows_simulation.
(** With its own arguments it ends (the single precision numbers of the axes are finite and not all alike). *)
Theorem C83_completes orc gd fmt cwd s : (forall u v b x y, rect (length y) (length x) (gd u v b x y)) ->
  (forall x, Rabs x < half_width (sim_call cwd) -> exists y, so_f32 orc x = Fin y) -> so_f32 orc (- grid_step (sim_call cwd)) <> so_f32 orc 0 ->
  file_tree s -> sim_usable (sim_call cwd) s -> s (generated cwd 0) = None ->
  exists ob fig s', run (simulate_script orc gd fmt (sim_call cwd)) s = (Ok (ob, fig), s').
Proof. exact (call_completes orc gd fmt cwd s). Qed.
Print Assumptions C83_completes.
Example C83_nonvacuous : exists ob fig s', run (simulate_script demo_outside flat_griddata (fun _ => "0") (sim_call [])) fresh_fs = (Ok (ob, fig), s') /\
  file_tree fresh_fs /\ physical (sim_call []) /\ fresh_fs (generated [] 0) = None.
Proof.
  destruct (C83_completes demo_outside flat_griddata (fun _ => "0") [] fresh_fs flat_shape) as (ob & fig & s' & H).
  - intros x _. exists x. reflexivity.
  - intros E. assert (X : - grid_step (sim_call []) = 0) by (inversion E; reflexivity). apply fresh_step in X. exact X.
  - exact fresh_tree.
  - split; [reflexivity|left; reflexivity].
  - reflexivity.
  - exists ob, fig, s'. split; [exact H|]. split; [exact fresh_tree|]. split; [apply call_physical|reflexivity].
Qed.

(** C84. Run again with other arguments it shows the first simulation again: the new one is stored as test001.fits and never read. *)
Theorem C84_second_run_refuted orc orc' gd fmt a b s ob fig s1 ob' fig' s2 : si_work_dir b = si_work_dir a ->
  run (simulate_script orc gd fmt a) s = (Ok (ob, fig), s1) -> run (simulate_script orc' gd fmt b) s1 = (Ok (ob', fig'), s2) -> ob' = ob /\ fig' = fig.
Proof. exact (sim_script_again orc orc' gd fmt a b s ob fig s1 ob' fig' s2). Qed.
Print Assumptions C84_second_run_refuted.
Example C84_nonvacuous : exists a b s ob fig s1 s2, run (simulate_script demo_outside flat_griddata (fun _ => "0") a) s = (Ok (ob, fig), s1) /\
  run (simulate_script demo_outside flat_griddata (fun _ => "0") b) s1 = (Ok (ob, fig), s2) /\ si_work_dir b = si_work_dir a /\ si_wavel b <> si_wavel a /\ ob_wavel ob = si_wavel a.
Proof. exact twice_demo. Qed.
