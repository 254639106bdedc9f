(** Failing system calls: a full disk, a missing permission, a read error. *)
From Coq Require Import String List.
From Verif Require Import PyBase PyLib Num MZernike MMath MAperture MRad MCore MFs MOut MAux MSim MTab MAct MPlot MActPlot MScript MFault SOut SFit SOrder SFault.
From Verif Require Import PFs PFit PFit3 PFit4 PFit8 PCrash PDemo PFault PFault2 PFault3.
Import ListNotations.
Open Scope R_scope.
Open Scope string_scope.
Open Scope list_scope.

(** Every function that touches files reports a failure: whichever calls fail, it ends
    as if none had, or raises OSError and leaves the files of a run killed there. *)
Theorem C116_reported : (forall orc a, reports (fit_zpoly orc a)) /\ (forall orc sc cwd files, reports (batch orc sc cwd files)) /\
  (forall orc a, reports (simulate_data_pyoof orc a)) /\ (forall orc gd fmt a, reports (simulate_script orc gd fmt a)) /\
  (forall k o runs base old dir, reports (create_lookup k o runs base old dir)) /\ (forall isot dirs n, reports (table_pyoof_out isot dirs n)) /\
  (forall gd pt strict d n illum tel g plim save, reports (draw_fit_path gd pt strict d n illum tel g plim save)) /\
  (forall cwd p, reports (extract_data_pyoof cwd p)) /\ (forall cwd p, reports (extract_data_effelsberg cwd p)) /\
  (forall sp o p a, reports (write_lookup sp o p a)) /\ (forall p, reports (read_lookup_plain p)) /\ (forall gd o p, reports (read_lookup_interp gd o p)).
Proof.
  repeat split; intros; apply reports_tame; [apply tame_fit|apply tame_batch|apply tame_sim|apply tame_sim_script|apply tame_create|apply tame_table|apply tame_draw|
    apply tame_extract|apply tame_extract_effelsberg|apply tame_write_lookup|apply tame_plain|apply tame_interp].
Qed.
Print Assumptions C116_reported.
(** A fit that returns has stored what it stores on a sound disk. *)
Theorem C116_success orc a s bad s' : run_bad false bad 0 (fit_zpoly orc a) s = (Ok tt, s') -> run (fit_zpoly orc a) s = (Ok tt, s').
Proof. exact (run_ok bad (fit_zpoly orc a) 0 s tt s' (tame_fit orc a)). Qed.
Print Assumptions C116_success.
(** A fit that is stopped has altered nothing that was there, and each of its files is
    absent, unfinished or the one a sound run would have stored. *)
Theorem C116_stopped orc a s bad r s' : file_tree s -> free_number a s -> run_bad false bad 0 (fit_zpoly orc a) s = (r, s') ->
  unaltered s s' /\ forall sf, run (fit_zpoly orc a) s = (Ok tt, sf) -> under_way s sf s'.
Proof. exact (fun W F H => proj2 (fit_disk orc a s bad 0 r s' W F H)). Qed.
Print Assumptions C116_stopped.
(** The next fit, with space on the disk again, takes a directory of its own. *)
Theorem C116_rerun orc orc' a b s bad s1 s2 : file_tree s -> free_number a s -> run_bad false bad 0 (fit_zpoly orc a) s = (Err OSError, s1) ->
  free_number b s1 -> run (fit_zpoly orc' b) s1 = (Ok tt, s2) ->
  unaltered s1 s2 /\ exists j, (j <= 100)%nat /\ s1 (numbered (fit_dir b) (fa_name b) j) = None /\ s2 (numbered (fit_dir b) (fa_name b) j) = Some Dir.
Proof.
  intros W F H Fb R. destruct (reports_cut _ (reports_tame _ (tame_fit orc a)) bad s _ s1 H) as (n & E).
  exact (proj2 (after_crash orc orc' a b s n s1 s2 W F E Fb R)).
Qed.
Print Assumptions C116_rerun.
(** The disk can fill up at any file: for every file a run completes there is a moment
    such that, with the disk full from then on, the run raises OSError and leaves that
    file unfinished. *)
Theorem C116_any_file orc a s sf q : run (fit_zpoly orc a) s = (Ok tt, sf) -> ~ complete s q -> complete sf q ->
  exists n s', run_bad false (from n) 0 (fit_zpoly orc a) s = (Err OSError, s') /\ s' q = Some (File Partial).
Proof. exact (every_file (fit_zpoly orc a) s (Ok tt) sf q). Qed.
Print Assumptions C116_any_file.
(** The exception: a question whether a path exists has no failure, only the answer no.
    When the stat call of the first question about <name>-000 fails, a fit stores its
    results in that directory, over those of the earlier run, although numbers are free. *)
Theorem C116_unanswered_refuted orc a s c : file_tree s -> s (fit_dir a ++ ["pyoof_out"]) = Some Dir -> plain_dir s (numbered (fit_dir a) (fa_name a) 0) ->
  configured a s c -> valid_config c -> cooperative orc -> 0 < tel_pr (fa_tel a) -> three_maps a -> (1 <= fa_order_max a)%nat ->
  exists i s' rows out, run_bad true (Nat.eqb i) 0 (fit_zpoly orc a) s = (Ok tt, s') /\ fitpar_rows s' (numbered (fit_dir a) (fa_name a) 0) 1 rows /\
    map parinit rows = cf_init c /\ answered orc a c 1 (map parinit rows) out /\ params_complete (cf_fixed c) (cf_excluded c) 3 (lo_x out) = Ok (map parfit rows).
Proof. exact (blind_rows orc a s c). Qed.
Print Assumptions C116_unanswered_refuted.
Theorem C116_overwritten_refuted : exists orc a s i s' q, file_tree s /\ free_number a s /\
  run_bad true (Nat.eqb i) 0 (fit_zpoly orc a) s = (Ok tt, s') /\ s q <> None /\ s' q <> s q.
Proof. exact blind_overwrites. Qed.
Print Assumptions C116_overwritten_refuted.
Example C116_nonvacuous : exists sf, file_tree demo_fs /\ free_number (demo_args "obs" 2) demo_fs /\ run (fit_zpoly demo_oracle (demo_args "obs" 2)) demo_fs = (Ok tt, sf) /\
  run_bad false (from 0) 0 (fit_zpoly demo_oracle (demo_args "obs" 2)) demo_fs = (Err OSError, demo_fs) /\
  (exists j, ~ complete demo_fs (numbered ["w"] "obs" j ++ ["fitpar_n1.csv"]) /\ complete sf (numbered ["w"] "obs" j ++ ["fitpar_n1.csv"])) /\
  file_tree one_fs /\ free_number (demo_args "obs" 2) one_fs /\ plain_dir one_fs (numbered ["w"] "obs" 0).
Proof.
  destruct (demo_runs "obs" 2) as [sf H]. exists sf. split; [exact demo_tree|]. split; [apply demo_free|]. split; [exact H|]. split; [reflexivity|].
  split; [|split; [exact one_tree|split; [apply one_free|exact one_plain]]].
  destruct (fit_files _ _ _ _ demo_tree H (demo_free _ _)) as (j & _ & D & _ & Dc & _). exists j. split.
  - intros (dc & _ & E). assert (P : demo_fs (numbered ["w"] "obs" j) = Some Dir) by (apply (proj2 demo_tree) with (c := "fitpar_n1.csv"); rewrite E; discriminate).
    rewrite demo_numbered in P. discriminate P.
  - apply (Dc ["fitpar_n1.csv"]). cbn. tauto.
Qed.
