(** Property theorems C71, C72: the summary table of several runs. *)
From Coq Require Import String Ascii List.
From Verif Require Import PyBase Num MZernike MMath MAperture MRad MCore MFs MOut SMath SOut SFit MTab STab PTab PDemo.
Import ListNotations.
Open Scope R_scope.
Open Scope string_scope.
Open Scope list_scope.

(** C71. One row per directory, in the given order, each from the files of the
    requested order; nothing is written. *)
Theorem C71_rows isot dirs n s k rs : arrays_stored s ->
  (fst (run (table_pyoof_out isot dirs n) s) = Ok (k, rs) <->
   k = n /\ Forall2 (summarises s n) dirs rs /\ forall r, In r rs -> isot (tr_date r) = true).
Proof. exact (table_iff isot dirs n s k rs). Qed.
Print Assumptions C71_rows.
Theorem C71_reads_only isot dirs n s : snd (run (table_pyoof_out isot dirs n) s) = s.
Proof. exact (table_unchanged isot dirs n s). Qed.
Print Assumptions C71_reads_only.
Theorem C71_determined s n d r r' : summarises s n d r -> summarises s n d r' -> r = r'.
Proof. exact (summarises_unique s n d r r'). Qed.
Print Assumptions C71_determined.
(** The row of a run: its observation, its fitted illumination, and the rms and
    the efficiency of the phase of its coefficients. *)
Theorem C71_after_fit isot orc a s s' c : file_tree s -> run (fit_zpoly orc a) s = (Ok tt, s') -> free_number a s -> configured a s c -> isot (fa_date a) = true ->
  exists j, (j <= 100)%nat /\ s (numbered (fit_dir a) (fa_name a) j) = None /\ let d := numbered (fit_dir a) (fa_name a) j in
    forall n, (1 <= n <= fa_order_max a)%nat -> exists r rows xy ph c0 c1 c2 rest,
      run (table_pyoof_out isot [d] n) s' = (Ok (n, [r]), s') /\
      tr_name r = fa_name a /\ tr_tel_name r = fa_tel_name a /\ tr_object r = fa_object a /\ tr_date r = fa_date a /\ tr_meanel r = fa_meanel a /\
      snr_values orc a = Ok (tr_snr r) /\
      fitpar_rows s' d n rows /\ length rows = (5 + coeffs n)%nat /\ map parfit rows = c0 :: c1 :: c2 :: rest /\ tr_i_amp r = c0 /\ tr_c_dB r = c1 /\ tr_q r = c2 /\
      phase (skipn 5 (map parfit rows)) (tel_pr (fa_tel a)) false false 1000 = Ok (xy, ph) /\
      tr_rms r = Fin (sqrt (disk_mean_square 1000 ph)) /\ tr_e_rs r = Fin (exp (- disk_mean_square 1000 ph)).
Proof. exact (table_after_fit isot orc a s s' c). Qed.
Print Assumptions C71_after_fit.

(** C72. Order 1 says nothing: whatever was observed and fitted. *)
Theorem C72_order_one isot orc a s s' c : file_tree s -> run (fit_zpoly orc a) s = (Ok tt, s') -> free_number a s -> configured a s c -> isot (fa_date a) = true ->
  (1 <= fa_order_max a)%nat -> 0 < tel_pr (fa_tel a) ->
  exists j, (j <= 100)%nat /\ s (numbered (fit_dir a) (fa_name a) j) = None /\
    exists r, run (table_pyoof_out isot [numbered (fit_dir a) (fa_name a) j] 1) s' = (Ok (1%nat, [r]), s') /\ tr_rms r = Fin 0 /\ tr_e_rs r = Fin 1.
Proof. exact (order1_row isot orc a s s' c). Qed.
Print Assumptions C72_order_one.

Definition small_info : run_info := {| ri_tel_name := "t"; ri_tel_opd := "o"; ri_pr := 50; ri_name := "a"; ri_object := "x"; ri_date := "now"; ri_d_z := []; ri_wavel := 1; ri_freq := 1;
  ri_illum := "i"; ri_meanel := 30; ri_resolution := 4; ri_box_factor := 5; ri_snr := [Fin 1; Fin 2; Fin 3] |}.
Definition small_map : list (list num) := [[Fin 7; Fin 1; Fin 7]; [Fin 2; Fin 3; NaN]; [Fin 7; Fin 4; Fin 7]].
Definition small_fs : fs := fun q => match q with
  | ["d"; "pyoof_info.yml"] => Some (File (Info small_info))
  | ["d"; "phase_n3.csv"] => Some (File (Csv "h" (A2 small_map)))
  | ["d"; "fitpar_n3.csv"] => Some (File (Params [("i_amp", 1, 0); ("c_dB", -2, 0); ("q", 3, 0)]))
  | _ => None end.
Example C71_nonvacuous : arrays_stored small_fs /\ (exists r, fst (run (table_pyoof_out (fun _ => true) [["d"]; ["d"]] 3) small_fs) = Ok (3%nat, [r; r])) /\
  exists s', file_tree demo_fs /\ run (fit_zpoly demo_oracle (demo_args "obs" 3)) demo_fs = (Ok tt, s') /\ free_number (demo_args "obs" 3) demo_fs /\
    configured (demo_args "obs" 3) demo_fs default_config /\ 0 < tel_pr (fa_tel (demo_args "obs" 3)).
Proof.
  split; [|split].
  - intros q h m H. exists 3%nat. assert (E : m = small_map).
    { unfold small_fs in H. repeat match type of H with match ?x with _ => _ end = _ => destruct x; try discriminate H end; injection H as _ <-; reflexivity. }
    subst m. intros row [<-|[<-|[<-|[]]]]; reflexivity.
  - eexists. reflexivity.
  - destruct (demo_runs "obs" 3) as [s' H]. exists s'. split; [exact demo_tree|]. split; [exact H|]. split; [apply demo_free|]. split; [reflexivity|cbn; lra].
Qed.
