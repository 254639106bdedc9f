(** Property theorems C90, C91: the order in which the files of a run appear. *)
From Coq Require Import String Ascii List Lia.
From Verif Require Import PyBase Num MAperture MFs MOut SOut SOrder SFit PFs PFit4 PFit5 PFit6 PCrash PCrash2 PDemo PDemo3.
Import ListNotations.
Open Scope R_scope.
Open Scope string_scope.
Open Scope list_scope.

(** C90. At any moment of a run, wherever it is killed and also when it ends with an
    exception, no file exists before all those listed earlier are complete. *)
Theorem C90_sequence orc a s j st : file_tree s -> free_number a s -> s (numbered (fit_dir a) (fa_name a) j) = None ->
  (exists n, st = snd (steps n (fit_zpoly orc a) s)) \/ st = snd (run (fit_zpoly orc a) s) ->
  in_sequence st (numbered (fit_dir a) (fa_name a) j) (run_sequence (fa_order_max a) (fa_make_plots a)).
Proof. exact (sequence_any orc a s j st). Qed.
Print Assumptions C90_sequence.
(** The list contains the documented files. *)
Theorem C90_documented N plots x : In x (run_sequence N plots) <-> In x (documented N plots).
Proof. exact (run_sequence_documented N plots x). Qed.
Print Assumptions C90_documented.
(** Hence a file of order m shows that all files of the lower orders are complete. *)
Theorem C90_lower_orders orc a s j st m x : file_tree s -> free_number a s -> s (numbered (fit_dir a) (fa_name a) j) = None ->
  (exists n, st = snd (steps n (fit_zpoly orc a) s)) \/ st = snd (run (fit_zpoly orc a) s) ->
  (1 <= m <= fa_order_max a)%nat -> In x (order_sequence m (fa_make_plots a)) -> st (numbered (fit_dir a) (fa_name a) j ++ x) <> None ->
  forall y, In y (documented (m - 1) (fa_make_plots a)) -> complete st (numbered (fit_dir a) (fa_name a) j ++ y).
Proof. exact (fun W F N H => lower_complete st _ _ _ m x (sequence_any orc a s j st W F N H)). Qed.
Print Assumptions C90_lower_orders.
(** A complete file of a killed run is the one the whole run would have left. *)
Theorem C90_final orc a s sf n q : file_tree s -> free_number a s -> run (fit_zpoly orc a) s = (Ok tt, sf) -> s q = None ->
  complete (snd (steps n (fit_zpoly orc a) s)) q -> snd (steps n (fit_zpoly orc a) s) q = sf q.
Proof. exact (complete_final orc a s sf n q). Qed.
Print Assumptions C90_final.
Example C90_nonvacuous : exists st, st = snd (run (fit_zpoly demo_oracle (demo_args "obs" 3)) demo_fs) /\ file_tree demo_fs /\
  free_number (demo_args "obs" 3) demo_fs /\ In ["grad_n2.csv"] (order_sequence 2 true) /\
  exists j, demo_fs (numbered (fit_dir (demo_args "obs" 3)) "obs" j) = None /\ st (numbered (fit_dir (demo_args "obs" 3)) "obs" j ++ ["grad_n2.csv"]) <> None /\
    length (documented (2 - 1) true) = 17%nat.
Proof.
  destruct (demo_runs "obs" 3) as [st H]. exists st. rewrite H. split; [reflexivity|]. split; [exact demo_tree|]. split; [apply demo_free|]. split; [cbn; tauto|].
  destruct (fit_files _ _ _ _ demo_tree H (demo_free _ _)) as (j & _ & D & _ & Dc & _). exists j. split; [exact D|]. split; [|reflexivity].
  destruct (Dc ["grad_n2.csv"]) as (dc & _ & E); [cbn; tauto|]. cbn [fa_name demo_args] in E. rewrite E. discriminate.
Qed.

(** C91. Asking for more orders changes nothing that the lower orders leave, even
    when one of the further orders raises. *)
Theorem C91_more_orders orc a N k s s1 : file_tree s -> free_number a s -> run (fit_zpoly orc (with_orders a N)) s = (Ok tt, s1) ->
  forall q, s1 q <> None -> snd (run (fit_zpoly orc (with_orders a (N + k))) s) q = s1 q.
Proof. exact (more_orders orc a N k s s1). Qed.
Print Assumptions C91_more_orders.
(** Two orders succeed, the third raises. *)
Example C91_nonvacuous : file_tree demo_fs /\ free_number (demo_args "obs" 3) demo_fs /\
  exists s1 e s2, run (fit_zpoly no_third (with_orders (demo_args "obs" 3) 2)) demo_fs = (Ok tt, s1) /\
    run (fit_zpoly no_third (with_orders (demo_args "obs" 3) (2 + 1))) demo_fs = (Err e, s2).
Proof. split; [exact demo_tree|]. split; [apply demo_free|exact third_missing]. Qed.
