(** Property theorems C38-C46, C62-C64: what fit_zpoly leaves on disk. *)
From Coq Require Import String Ascii List Sorted Lia.
From Verif Require Import PyBase PyLib Num MZernike SZernike MAperture MRad MCore MFs MOut SOut SFit PFs PStr PFit PFit2 PFit3 PFit4 PFit5 PFit6 PStore PFit7 PFit8 PFit9 PConc PConc2 PCrash PDemo.
Import ListNotations.
Open Scope R_scope.
Open Scope string_scope.
Open Scope list_scope.

(** C38. The documented files, complete, in a directory that did not exist; nothing else changes. *)
Theorem C38_documented_files orc a s s' : file_tree s -> run (fit_zpoly orc a) s = (Ok tt, s') -> free_number a s ->
  exists j, (j <= 100)%nat /\ let d := numbered (fit_dir a) (fa_name a) j in
    s d = None /\ (forall i, (i < j)%nat -> s (numbered (fit_dir a) (fa_name a) i) <> None) /\
    (forall f, In f (documented (fa_order_max a) (fa_make_plots a)) -> exists dc, dc <> Partial /\ s' (d ++ f) = Some (File dc)) /\
    (forall q, above q d -> s' q = Some Dir) /\
    (fa_make_plots a = true -> (1 <= fa_order_max a)%nat -> s' (d ++ ["plots"]) = Some Dir) /\
    (forall q, ~ above q d ->
       (fa_make_plots a = true -> (1 <= fa_order_max a)%nat -> q <> d ++ ["plots"]) ->
       (forall f, In f (documented (fa_order_max a) (fa_make_plots a)) -> q <> d ++ f) -> s' q = s q).
Proof. exact (fit_files orc a s s'). Qed.
Print Assumptions C38_documented_files.
Example C38_nonvacuous : exists s', file_tree demo_fs /\ run (fit_zpoly demo_oracle (demo_args "obs" 3)) demo_fs = (Ok tt, s') /\
  free_number (demo_args "obs" 3) demo_fs /\ length (documented 3 true) = 41%nat.
Proof. destruct (demo_runs "obs" 3) as [s' H]. exists s'. split; [exact demo_tree|]. split; [exact H|]. split; [apply demo_free|reflexivity]. Qed.

(** C39. *)
Theorem C39_stored_parameters orc a s s' c : file_tree s -> run (fit_zpoly orc a) s = (Ok tt, s') -> free_number a s ->
  configured a s c -> valid_config c -> sized_answers orc ->
  exists j, (j <= 100)%nat /\ s (numbered (fit_dir a) (fa_name a) j) = None /\
    forall n, (1 <= n <= fa_order_max a)%nat -> exists rows out,
      fitpar_rows s' (numbered (fit_dir a) (fa_name a) j) n rows /\
      length rows = (5 + coeffs n)%nat /\
      firstn 5 (map parname rows) = ["i_amp"; "c_dB"; "q"; "x_0"; "y_0"] /\
      (forall i l, (i <= n)%nat -> admissible (Z.of_nat i) l ->
         nth (5 + coeff_pos i l) (map parname rows) "" = "K(" ^^ decZ (Z.of_nat i) ^^ ", " ^^ decZ l ^^ ")") /\
      (forall e, In (Z.of_nat e) (cf_excluded c) -> nth e (map parfit rows) 0 = nth e (cf_fixed c) 0) /\
      answered orc a c n (map parinit rows) out /\
      np_delete (map parfit rows) (cf_excluded c) = Ok (lo_x out).
Proof. exact (stored_params orc a s s' c). Qed.
Print Assumptions C39_stored_parameters.
Example C39_nonvacuous : exists s', run (fit_zpoly demo_oracle (demo_args "obs" 3)) demo_fs = (Ok tt, s') /\ file_tree demo_fs /\
  free_number (demo_args "obs" 3) demo_fs /\ configured (demo_args "obs" 3) demo_fs default_config /\ valid_config default_config /\ sized_answers demo_oracle /\
  admissible 3 (-1) /\ nth (5 + coeff_pos 3 (-1)) (param_names 3) "" = "K(3, -1)".
Proof.
  destruct (demo_runs "obs" 3) as [s' H]. exists s'. split; [exact H|]. split; [exact demo_tree|]. split; [apply demo_free|]. split; [reflexivity|]. split; [exact default_valid|].
  split; [exact demo_sized|]. split; [split; [cbn; lia|exists 2%Z; reflexivity]|reflexivity].
Qed.

(** C40. Where each order starts. *)
Theorem C40_starting_values orc a s s' c : file_tree s -> run (fit_zpoly orc a) s = (Ok tt, s') -> free_number a s -> configured a s c ->
  exists j, (j <= 100)%nat /\ s (numbered (fit_dir a) (fa_name a) j) = None /\
    forall n, (1 <= n <= fa_order_max a)%nat -> exists rows out,
      fitpar_rows s' (numbered (fit_dir a) (fa_name a) j) n rows /\ answered orc a c n (map parinit rows) out /\
      (fa_fit_previous a = false \/ n = 1%nat -> map parinit rows = cf_init c ++ repeat (1 / 10) (coeffs n - 3)) /\
      (fa_fit_previous a = true -> (2 <= n)%nat -> exists rows',
         fitpar_rows s' (numbered (fit_dir a) (fa_name a) j) (n - 1) rows' /\
         map parinit rows = map parfit rows' ++ repeat (1 / 10) (n + 1)).
Proof. exact (stored_starts orc a s s' c). Qed.
Print Assumptions C40_starting_values.
(** Replace the optimizer by any [g] that agrees with it on starting points inside
    the bounds (elsewhere g may do anything, e.g. raise): the run is the same.  So
    the optimizer is never given a starting point outside the bounds. *)
Theorem C40_feasible_strict orc g a s :
  (forall f x0 lo hi, within Rlt x0 lo hi -> g f x0 lo hi = or_lsq orc f x0 lo hi) ->
  (forall f x0 lo hi out, within Rlt x0 lo hi -> or_lsq orc f x0 lo hi = Ok out -> within Rlt (lo_x out) lo hi) ->
  sized_answers orc -> file_tree s -> free_number a s -> fa_config_file a = None ->
  run (fit_zpoly (with_lsq orc g) a) s = run (fit_zpoly orc a) s.
Proof. exact (feasible_default orc g a s). Qed.
Print Assumptions C40_feasible_strict.
(** The same for any configuration whose own starting values are feasible. *)
Theorem C40_feasible orc g a s c ex :
  (forall f x0 lo hi, within Rle x0 lo hi -> g f x0 lo hi = or_lsq orc f x0 lo hi) ->
  (forall f x0 lo hi out, within Rle x0 lo hi -> or_lsq orc f x0 lo hi = Ok out -> within Rle (lo_x out) lo hi) ->
  sized_answers orc -> file_tree s -> free_number a s -> configured a s c -> valid_config c ->
  cf_excluded c = map Z.of_nat ex -> Sorted lt ex -> (forall e, In e ex -> (e < 8)%nat) ->
  (forall i, (i < 8)%nat -> nth i (cf_bound_min c) 0 <= nth i (cf_init c) 0 <= nth i (cf_bound_max c) 0) ->
  run (fit_zpoly (with_lsq orc g) a) s = run (fit_zpoly orc a) s.
Proof. exact (feasible_any orc g a s c ex). Qed.
Print Assumptions C40_feasible.
Definition strict_lsq (f : list R -> res (list R)) (x0 lo hi : list R) : res lsq_out :=
  if forallb (fun i => Rltb (nth i lo 0) (nth i x0 0) && Rltb (nth i x0 0) (nth i hi 0)) (seq 0 (length x0))
  then or_lsq demo_oracle f x0 lo hi else Err ValueError.
Example C40_nonvacuous : (forall f x0 lo hi, within Rlt x0 lo hi -> strict_lsq f x0 lo hi = or_lsq demo_oracle f x0 lo hi) /\
  (forall f x0 lo hi out, within Rlt x0 lo hi -> or_lsq demo_oracle f x0 lo hi = Ok out -> within Rlt (lo_x out) lo hi) /\
  (forall f, strict_lsq f [1] [1] [2] = Err ValueError) /\
  (forall i, (i < 8)%nat -> nth i (cf_bound_min default_config) 0 <= nth i (cf_init default_config) 0 <= nth i (cf_bound_max default_config) 0).
Proof.
  split; [|split; [|split]].
  - intros f x0 lo hi (_ & _ & H). unfold strict_lsq. replace (forallb _ _) with true; [reflexivity|]. symmetry. apply forallb_forall. intros i Hi. apply in_seq in Hi.
    destruct (H i) as [H1 H2]; [lia|]. apply andb_true_iff. split; apply Rltb_true; assumption.
  - intros f x0 lo hi out Hw H. apply Ok_inj in H. subst out. exact Hw.
  - intros f. unfold strict_lsq. cbn [length seq forallb nth]. replace (Rltb 1 1) with false; [reflexivity|]. symmetry. apply Rltb_false. lra.
  - intros i Hi. do 8 (destruct i as [|i]; [cbn; lra|]). lia.
Qed.

(** C41. *)
Theorem C41_never_overwritten orc a s : file_tree s -> free_number a s -> unaltered s (snd (run (fit_zpoly orc a) s)).
Proof. exact (fun H1 H2 => always_run _ _ _ (fit_always orc a s H1 H2)). Qed.
Print Assumptions C41_never_overwritten.
Theorem C41_hundred_and_second_refuted orc a s c : file_tree s -> s (fit_dir a ++ ["pyoof_out"]) = Some Dir ->
  (forall j, (j <= 100)%nat -> s (numbered (fit_dir a) (fa_name a) j) <> None) -> plain_dir s (numbered (fit_dir a) (fa_name a) 100) ->
  configured a s c -> valid_config c -> cooperative orc -> 0 < tel_pr (fa_tel a) -> three_maps a -> (1 <= fa_order_max a)%nat ->
  exists s' rows out, run (fit_zpoly orc a) s = (Ok tt, s') /\ fitpar_rows s' (numbered (fit_dir a) (fa_name a) 100) 1 rows /\
    map parinit rows = cf_init c /\ answered orc a c 1 (map parinit rows) out /\ params_complete (cf_fixed c) (cf_excluded c) 3 (lo_x out) = Ok (map parfit rows).
Proof. exact (overwrites orc a s c). Qed.
Print Assumptions C41_hundred_and_second_refuted.
Theorem C41_overwritten_refuted : exists orc a s s' q, file_tree s /\ run (fit_zpoly orc a) s = (Ok tt, s') /\ s q <> None /\ s' q <> s q.
Proof. exact overwritten. Qed.
Print Assumptions C41_overwritten_refuted.
Example C41_nonvacuous : file_tree demo_fs /\ free_number (demo_args "obs" 2) demo_fs /\ demo_fs ["w"; "notes.csv"] = Some (File (Params [])) /\
  file_tree full_fs /\ (forall j, (j <= 100)%nat -> full_fs (numbered ["w"] "obs" j) <> None) /\ plain_dir full_fs (numbered ["w"] "obs" 100).
Proof.
  split; [exact demo_tree|]. split; [apply demo_free|]. split; [reflexivity|]. split; [exact full_tree|]. split; [|exact full_inv].
  intros j Hj. rewrite full_numbered by exact Hj. discriminate.
Qed.

(** C42. *)
Theorem C42_no_collision w n1 n2 j k : numbered w n1 j = numbered w n2 k -> n1 = n2 /\ j = k.
Proof. exact (numbered_inj w n1 n2 j k). Qed.
Print Assumptions C42_no_collision.
Theorem C42_increasing orc orc' a b s s1 s2 : file_tree s -> free_number a s -> run (fit_zpoly orc a) s = (Ok tt, s1) ->
  fit_dir b = fit_dir a -> fa_name b = fa_name a -> free_number b s1 -> run (fit_zpoly orc' b) s1 = (Ok tt, s2) ->
  exists j k, (j < k <= 100)%nat /\
    s (numbered (fit_dir a) (fa_name a) j) = None /\ s1 (numbered (fit_dir a) (fa_name a) j) = Some Dir /\
    s1 (numbered (fit_dir a) (fa_name a) k) = None /\ s2 (numbered (fit_dir a) (fa_name a) k) = Some Dir /\
    (forall i, (i < j)%nat -> s (numbered (fit_dir a) (fa_name a) i) <> None) /\
    (forall i, (i < k)%nat -> s1 (numbered (fit_dir a) (fa_name a) i) <> None).
Proof. exact (successive orc orc' a b s s1 s2). Qed.
Print Assumptions C42_increasing.
Example C42_nonvacuous : exists s1 s2, run (fit_zpoly demo_oracle (demo_args "obs" 2)) demo_fs = (Ok tt, s1) /\
  free_number (demo_args "obs" 1) s1 /\ run (fit_zpoly demo_oracle (demo_args "obs" 1)) s1 = (Ok tt, s2) /\ numbered ["w"] "a-0" 0 <> numbered ["w"] "a" 0.
Proof. exact two_runs. Qed.

(** C43. Killed after any number n of file system calls. *)
Theorem C43_crash orc orc' a b s n s1 s2 : file_tree s -> free_number a s -> s1 = snd (steps n (fit_zpoly orc a) s) ->
  free_number b s1 -> run (fit_zpoly orc' b) s1 = (Ok tt, s2) ->
  unaltered s s1 /\ unaltered s1 s2 /\
  exists j, (j <= 100)%nat /\ s1 (numbered (fit_dir b) (fa_name b) j) = None /\ s2 (numbered (fit_dir b) (fa_name b) j) = Some Dir.
Proof. exact (after_crash orc orc' a b s n s1 s2). Qed.
Print Assumptions C43_crash.
Theorem C43_confined orc a s : file_tree s -> usable (fit_dir a) s -> free_number a s ->
  exists j, (j <= 100)%nat /\ let d := numbered (fit_dir a) (fa_name a) j in
    s d = None /\ (forall i, (i < j)%nat -> s (numbered (fit_dir a) (fa_name a) i) <> None) /\
    forall n q, snd (steps n (fit_zpoly orc a) s) q <> s q -> s q = None /\ (above q d \/ below d q).
Proof. exact (crash_confined orc a s). Qed.
Print Assumptions C43_confined.
Example C43_nonvacuous : exists s2, let s1 := snd (steps 4 (fit_zpoly demo_oracle (demo_args "obs" 2)) demo_fs) in
  s1 (numbered ["w"] "obs" 0) = Some Dir /\ free_number (demo_args "obs" 2) s1 /\ run (fit_zpoly demo_oracle (demo_args "obs" 2)) s1 = (Ok tt, s2).
Proof. exact crashed_run. Qed.

(** C44. *)
Theorem C44_concurrent oa ob a b s sched p' q' s' ra rb :
  file_tree s -> usable (fit_dir a) s -> usable (fit_dir b) s -> no_file_100 a s -> no_file_100 b s ->
  separate a b -> config_clear a b -> config_clear b a -> ~ cfg_of a (base_of a) -> ~ cfg_of b (base_of b) ->
  interleave sched (fit_zpoly oa a) (fit_zpoly ob b) s = (p', q', s') ->
  finished p' = Some ra -> finished q' = Some rb ->
  ra = fst (run (fit_zpoly oa a) s) /\ rb = fst (run (fit_zpoly ob b) s) /\
  (forall q, region a q -> s' q = snd (run (fit_zpoly oa a) s) q) /\
  (forall q, region b q -> s' q = snd (run (fit_zpoly ob b) s) q) /\
  (forall q, ~ region a q -> ~ region b q -> q <> base_of a -> q <> base_of b -> s' q = s q).
Proof. exact (concurrent oa ob a b s sched p' q' s' ra rb). Qed.
Print Assumptions C44_concurrent.
Theorem C44_different_names_separate a b : fit_dir a = fit_dir b -> fa_name a <> fa_name b -> separate a b.
Proof. exact (separate_names a b). Qed.
Print Assumptions C44_different_names_separate.
(** Same name: a schedule under which both runs succeed in directory 000 and the
    table there is the second run's. *)
Theorem C44_same_name_refuted oa ob a b s :
  file_tree s -> fit_dir a = fit_dir b -> fa_name a = fa_name b -> fa_config_file a = None -> fa_config_file b = None ->
  usable (fit_dir a) s -> s (base_of a) = Some Dir -> s (numbered (fit_dir a) (fa_name a) 0) = None ->
  cooperative oa -> cooperative ob -> 0 < tel_pr (fa_tel a) -> 0 < tel_pr (fa_tel b) -> three_maps a -> three_maps b ->
  (1 <= fa_order_max b)%nat ->
  exists sched s' rows out,
    interleave sched (fit_zpoly oa a) (fit_zpoly ob b) s = (Ret tt, Ret tt, s') /\
    (forall j, (1 <= j)%nat -> s' (numbered (fit_dir a) (fa_name a) j) = s (numbered (fit_dir a) (fa_name a) j)) /\
    fitpar_rows s' (numbered (fit_dir a) (fa_name a) 0) 1 rows /\ answered ob b default_config 1 (map parinit rows) out /\
    params_complete (cf_fixed default_config) (cf_excluded default_config) 3 (lo_x out) = Ok (map parfit rows).
Proof. exact (race_spec oa ob a b s). Qed.
Print Assumptions C44_same_name_refuted.
Example C44_nonvacuous : exists sched s', let a := demo_args "obs" 2 in let b := demo_args "abs" 3 in
  separate a b /\ usable (fit_dir a) demo_fs /\ no_file_100 a demo_fs /\ no_file_100 b demo_fs /\ config_clear a b /\
  interleave sched (fit_zpoly demo_oracle a) (fit_zpoly demo_oracle b) demo_fs = (Ret tt, Ret tt, s') /\
  demo_fs (base_of a) = Some Dir /\ demo_fs (numbered (fit_dir a) (fa_name a) 0) = None.
Proof. exact concurrent_example. Qed.

(** C45. *)
Theorem C45_csv_pairs name d n l s s' : length l = 9%nat -> run (store_data_csv name d n l) s = (Ok tt, s') ->
  (forall k f h, csv_written n k -> nth k (csv_layout n) ("", "") = (f, h) ->
     s' (d ++ [f]) = Some (File (Csv (h ^^ " " ^^ name) (nth k l (A1 []))))) /\
  (forall q, (forall k f h, csv_written n k -> nth k (csv_layout n) ("", "") = (f, h) -> q <> d ++ [f]) -> s' q = s q).
Proof. exact (store_csv_spec name d n l s s'). Qed.
Print Assumptions C45_csv_pairs.
Theorem C45_csv_succeeds name d n l s : s d = Some Dir -> (forall f, In f (map fst (csv_layout n)) -> s (d ++ [f]) <> Some Dir) ->
  exists s', run (store_data_csv name d n l) s = (Ok tt, s').
Proof. exact (store_csv_ok name d n l s). Qed.
Print Assumptions C45_csv_succeeds.
Theorem C45_orders_disjoint n m k1 k2 : n <> m -> (3 <= k1 < 9)%nat -> (k2 < 9)%nat ->
  fst (nth k1 (csv_layout n) ("", "")) <> fst (nth k2 (csv_layout m) ("", "")).
Proof. exact (csv_orders_disjoint n m k1 k2). Qed.
Print Assumptions C45_orders_disjoint.
Example C45_nonvacuous : exists s', run (store_data_csv "obs" ["w"] 12 (repeat (A1 [Fin 1]) 9)) demo_fs = (Ok tt, s') /\ s' ["w"; "res_n12.csv"] = Some (File (Csv "Residual obs" (A1 [Fin 1]))).
Proof.
  destruct (store_csv_ok "obs" ["w"] 12 (repeat (A1 [Fin 1]) 9) demo_fs) as [s' H]; [reflexivity|intros f Hf; cbn [map fst csv_layout In] in Hf; repeat (destruct Hf as [<-|Hf]; [discriminate|]); destruct Hf|].
  exists s'. split; [exact H|]. destruct (store_csv_spec "obs" ["w"] 12 (repeat (A1 [Fin 1]) 9) demo_fs s' eq_refl H) as [G _]. apply (G 3%nat "res_n12.csv" "Residual"); [split; [lia|right; lia]|reflexivity].
Qed.

(** C46. *)
Theorem C46_preceded s a b : letters (str2LaTeX s) = a ++ underscore :: b -> exists a', a = a' ++ [backslash].
Proof. exact (latex_preceded s a b). Qed.
Print Assumptions C46_preceded.
Theorem C46_readable s : read_latex (letters (str2LaTeX s)) = letters s.
Proof. exact (latex_read s). Qed.
Print Assumptions C46_readable.
Theorem C46_injective s t : str2LaTeX s = str2LaTeX t -> s = t.
Proof. exact (latex_inj s t). Qed.
Print Assumptions C46_injective.
Theorem C46_length s : length (letters (str2LaTeX s)) = (length (letters s) + count_occ ascii_dec (letters s) underscore)%nat.
Proof. exact (latex_length s). Qed.
Print Assumptions C46_length.
Theorem C46_others_kept s : filter (fun x => negb (Ascii.eqb x underscore || Ascii.eqb x backslash)) (letters (str2LaTeX s)) =
  filter (fun x => negb (Ascii.eqb x underscore || Ascii.eqb x backslash)) (letters s).
Proof. exact (latex_others s). Qed.
Print Assumptions C46_others_kept.
Theorem C46_idempotent_refuted s : str2LaTeX (str2LaTeX s) = str2LaTeX s <-> ~ In underscore (letters s).
Proof. exact (latex_idempotent s). Qed.
Print Assumptions C46_idempotent_refuted.
Example C46_nonvacuous : letters (str2LaTeX "a_b") = ["a"; "\"; "_"; "b"]%char.
Proof. reflexivity. Qed.

(** C62. *)
Theorem C62_completes orc a s c : file_tree s -> usable (fit_dir a) s -> free_number a s -> configured a s c -> valid_config c ->
  cooperative orc -> 0 < tel_pr (fa_tel a) -> three_maps a -> exists s', run (fit_zpoly orc a) s = (Ok tt, s').
Proof. exact (fit_completes orc a s c). Qed.
Print Assumptions C62_completes.
Example C62_nonvacuous : file_tree demo_fs /\ usable (fit_dir (demo_args "obs" 7)) demo_fs /\ free_number (demo_args "obs" 7) demo_fs /\
  configured (demo_args "obs" 7) demo_fs default_config /\ valid_config default_config /\ cooperative demo_oracle /\ 0 < tel_pr demo_tel /\ three_maps (demo_args "obs" 7).
Proof.
  split; [exact demo_tree|]. split; [apply demo_usable|]. split; [apply demo_free|]. split; [reflexivity|]. split; [exact default_valid|]. split; [exact demo_cooperative|].
  split; [cbn; lra|apply demo_maps].
Qed.

(** C63. *)
Theorem C63_files_belong_together orc a s s' c : file_tree s -> run (fit_zpoly orc a) s = (Ok tt, s') -> free_number a s -> configured a s c ->
  exists j snrs, (j <= 100)%nat /\ s (numbered (fit_dir a) (fa_name a) j) = None /\ snr_values orc a = Ok snrs /\
    let d := numbered (fit_dir a) (fa_name a) j in
    ((1 <= fa_order_max a)%nat ->
       csv_file s' d "beam_data.csv" ("Normalized beam " ^^ fa_name a) (A2 (fa_beam a)) /\
       csv_file s' d "u_data.csv" ("u vector radians " ^^ fa_name a) (A2 (map (map Fin) (fa_u a))) /\
       csv_file s' d "v_data.csv" ("v vector radians " ^^ fa_name a) (A2 (map (map Fin) (fa_v a))) /\
       exists i, s' (d ++ ["pyoof_info.yml"]) = Some (File (Info i)) /\ describes i a snrs) /\
    forall n, (1 <= n <= fa_order_max a)%nat -> exists rows out r xy ph cov cor idx,
      fitpar_rows s' d n rows /\ length rows = (5 + coeffs n)%nat /\ started a c s' d n (map parinit rows) /\
      answered orc a c n (map parinit rows) out /\ params_complete (cf_fixed c) (cf_excluded c) (coeffs n) (lo_x out) = Ok (map parfit rows) /\
      csv_file s' d ("res_n" ^^ dec n ^^ ".csv") ("Residual " ^^ fa_name a) (A2 (map (map Fin) r)) /\
      concat r = lo_fun out /\ length r = 3%nat /\ (forall x, In x r -> (3 * length x = length (lo_fun out))%nat) /\
      csv_file s' d ("jac_n" ^^ dec n ^^ ".csv") ("Jacobian " ^^ fa_name a) (A2 (map (map Fin) (lo_jac out))) /\
      csv_file s' d ("grad_n" ^^ dec n ^^ ".csv") ("Gradient " ^^ fa_name a) (A1 (map Fin (lo_grad out))) /\
      phase (skipn 5 (map parfit rows)) (tel_pr (fa_tel a)) false false 1000 = Ok (xy, ph) /\
      csv_file s' d ("phase_n" ^^ dec n ^^ ".csv") ("Phase-error radians " ^^ fa_name a) (A2 (map (map Fin) ph)) /\
      np_delete (map INR (seq 0 (length rows))) (cf_excluded c) = Ok idx /\
      or_comat orc (lo_fun out) (lo_jac out) (length idx) = Ok (cov, cor) /\
      csv_file s' d ("cov_n" ^^ dec n ^^ ".csv") ("Variance-Covariance matrix (first row fitted parameters idx) " ^^ fa_name a) (A2 (map (map Fin) (idx :: cov))) /\
      csv_file s' d ("corr_n" ^^ dec n ^^ ".csv") ("Correlation matrix (first row fitted parameters idx) " ^^ fa_name a) (A2 (map (map Fin) (idx :: cor))).
Proof. exact (stored_together orc a s s' c). Qed.
Print Assumptions C63_files_belong_together.
Example C63_nonvacuous : exists s', run (fit_zpoly demo_oracle (demo_args "obs" 2)) demo_fs = (Ok tt, s') /\ file_tree demo_fs /\
  free_number (demo_args "obs" 2) demo_fs /\ configured (demo_args "obs" 2) demo_fs default_config.
Proof. destruct (demo_runs "obs" 2) as [s' H]. exists s'. split; [exact H|]. split; [exact demo_tree|]. split; [apply demo_free|reflexivity]. Qed.

(** C64. *)
Theorem C64_crash_leaves_final_or_unfinished orc a s sf n : file_tree s -> free_number a s -> run (fit_zpoly orc a) s = (Ok tt, sf) ->
  under_way s sf (snd (steps n (fit_zpoly orc a) s)).
Proof. exact (fun H1 H2 H3 q => crash_final orc a s sf n q H1 H2 H3). Qed.
Print Assumptions C64_crash_leaves_final_or_unfinished.
Example C64_nonvacuous : exists sf, file_tree demo_fs /\ free_number (demo_args "obs" 2) demo_fs /\ run (fit_zpoly demo_oracle (demo_args "obs" 2)) demo_fs = (Ok tt, sf).
Proof. destruct (demo_runs "obs" 2) as [s' H]. exists s'. split; [exact demo_tree|]. split; [apply demo_free|exact H]. Qed.
