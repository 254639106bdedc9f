(** Concrete runs meeting the hypotheses of the fit_zpoly theorems, and the two
    refutations restated against the specification. *)
From Coq Require Import String Ascii List Sorted Lia.
From Verif Require Import PyBase PyLib Num MZernike SZernike MMath MAperture MTel PIllum MRad MCore PParams MFs MOut SOut SFit PFs PStr PFit PFit2 PFit3 PFit4 PFit5 PFit6 PFit7 PFit8 PFit9 PConc PConc2.
Import ListNotations.
Open Scope R_scope.
Open Scope string_scope.
Open Scope list_scope.

(** An optimizer that returns its starting point. *)
Definition demo_oracle : oracle := {|
  or_lsq := fun _ x0 _ _ => Ok {| lo_x := x0; lo_fun := [0; 0; 0]; lo_jac := []; lo_grad := [] |};
  or_comat := fun _ _ k => Ok ([repeat 0 k], [repeat 0 k]);
  or_griddata := fun _ _ _ _ _ => []; or_round2 := fun x => x; or_draw := fun _ => Ok tt |}.
Definition demo_tel : telgeo := {| block_dist := block_manual 50 3 1 20; opd_func := opd_manual 30 300; tel_pr := 50 |}.
Definition demo_args (name : string) (N : nat) : fit_args := {|
  fa_name := name; fa_pthto := ["w"]; fa_object := "3C84"; fa_date := "today"; fa_freq := 32; fa_wavel := 1 / 100; fa_d_z := [-1; 0; 1]; fa_meanel := 45;
  fa_beam := [[Fin 1]; [Fin 1]; [Fin 1]]; fa_u := [[0]; [0]; [0]]; fa_v := [[0]; [0]; [0]]; fa_order_max := N;
  fa_illum := illum_parabolic; fa_illum_name := "parabolic"; fa_tel := demo_tel; fa_opd_name := "manual"; fa_tel_name := "manual";
  fa_resolution := 256; fa_box_factor := 5; fa_fit_previous := true; fa_config_file := None; fa_make_plots := true; fa_work_dir := None |}.
Definition listed (dirs : list path) (file : path) (q : path) : option node :=
  if in_dec path_eq_dec q dirs then Some Dir else if path_eq_dec q file then Some (File (Params [])) else None.
(** A work directory holding one file; the same with 101 earlier runs. *)
Definition demo_fs : fs := listed [[]; ["w"]; ["w"; "pyoof_out"]] ["w"; "notes.csv"].
Definition full_fs : fs := listed ([] :: ["w"] :: ["w"; "pyoof_out"] :: map (numbered ["w"] "obs") (seq 0 101)) (numbered ["w"] "obs" 100 ++ ["fitpar_n1.csv"]).

Lemma listed_tree dirs file : In [] dirs -> (forall p c, In (p ++ [c]) dirs -> In p dirs) -> (exists p c, file = p ++ [c] /\ In p dirs) -> file_tree (listed dirs file).
Proof.
  intros H0 H1 (p0 & c0 & Ef & Hf). unfold listed. split; [destruct (in_dec _ _ _); [reflexivity|contradiction]|].
  intros p c H. destruct (in_dec path_eq_dec p dirs) as [|Hn]; [reflexivity|]. exfalso. destruct (in_dec path_eq_dec (p ++ [c]) dirs) as [Hi|Hi]; [apply Hn, (H1 p c Hi)|].
  destruct (path_eq_dec (p ++ [c]) file) as [E|]; [|congruence]. rewrite Ef in E. apply app_inj_tail in E. destruct E as [-> _]. contradiction.
Qed.
Lemma demo_tree : file_tree demo_fs.
Proof.
  apply listed_tree; [left; reflexivity| |exists ["w"], "notes.csv"; split; [reflexivity|right; left; reflexivity]].
  intros p c H. cbn [In] in *. destruct H as [H|[H|[H|[]]]].
  - destruct p; discriminate H.
  - change ["w"] with ([] ++ ["w"]) in H. apply app_inj_tail in H. destruct H as [<- _]. auto.
  - change ["w"; "pyoof_out"] with (["w"] ++ ["pyoof_out"]) in H. apply app_inj_tail in H. destruct H as [<- _]. auto.
Qed.
Lemma full_tree : file_tree full_fs.
Proof.
  apply listed_tree; [left; reflexivity| |].
  - intros p c H. cbn [In] in *. destruct H as [H|[H|[H|H]]].
    + destruct p; discriminate H.
    + change ["w"] with ([] ++ ["w"]) in H. apply app_inj_tail in H. destruct H as [<- _]. auto.
    + change ["w"; "pyoof_out"] with (["w"] ++ ["pyoof_out"]) in H. apply app_inj_tail in H. destruct H as [<- _]. auto.
    + apply in_map_iff in H. destruct H as (j & E & Hj). rewrite numbered_snoc in E. apply app_inj_tail in E. destruct E as [<- _]. auto.
  - eexists _, _. split; [reflexivity|]. do 3 right. apply in_map, in_seq. lia.
Qed.
Lemma demo_usable name N : usable (fit_dir (demo_args name N)) demo_fs.
Proof. split; [reflexivity|right; reflexivity]. Qed.
Lemma demo_numbered name j : demo_fs (numbered ["w"] name j) = None.
Proof.
  rewrite numbered_snoc. unfold demo_fs, listed. destruct (in_dec _ _ _) as [H|_].
  - exfalso. cbn [In] in H. destruct H as [H|[H|[H|[]]]]; apply (f_equal (@length _)) in H; rewrite !app_length in H; cbn in H; lia.
  - destruct (path_eq_dec _ _) as [H|_]; [|reflexivity]. apply (f_equal (@length _)) in H. rewrite !app_length in H. cbn in H. lia.
Qed.
Lemma demo_free name N : free_number (demo_args name N) demo_fs.
Proof. exists 0%nat. split; [lia|apply demo_numbered]. Qed.
Lemma demo_cooperative : cooperative demo_oracle.
Proof.
  split; [|split].
  - intros f x0 lo hi. eexists. split; [reflexivity|]. split; reflexivity.
  - intros r J k. eexists _, _. split; [reflexivity|]. split; intros row [<-|[]]; apply repeat_length.
  - reflexivity.
Qed.
Lemma demo_sized : sized_answers demo_oracle.
Proof. intros f x0 lo hi out H. apply Ok_inj in H. subst out. reflexivity. Qed.
Lemma demo_maps name N : three_maps (demo_args name N).
Proof. repeat split; try (cbn; lia); destruct i as [|[|[|i]]]; cbn; discriminate || lia. Qed.
Lemma demo_configured name N s : configured (demo_args name N) s default_config.
Proof. reflexivity. Qed.
Lemma demo_runs name N : exists s', run (fit_zpoly demo_oracle (demo_args name N)) demo_fs = (Ok tt, s').
Proof.
  apply (fit_completes _ _ _ default_config); [exact demo_tree|apply demo_usable|apply demo_free|reflexivity|exact default_valid|exact demo_cooperative|cbn; lra|apply demo_maps].
Qed.
Lemma full_numbered j : (j <= 100)%nat -> full_fs (numbered ["w"] "obs" j) = Some Dir.
Proof. intros H. unfold full_fs, listed. destruct (in_dec _ _ _) as [_|N]; [reflexivity|]. exfalso. apply N. do 3 right. apply in_map, in_seq. lia. Qed.
Lemma full_inv : inv (numbered ["w"] "obs" 100) full_fs.
Proof.
  assert (L : forall r, r <> [] -> ~ In (numbered ["w"] "obs" 100 ++ r) ([] :: ["w"] :: ["w"; "pyoof_out"] :: map (numbered ["w"] "obs") (seq 0 101))).
  { intros r Hr H. assert (Lr : (length (numbered ["w"] "obs" 100 ++ r) > 3)%nat) by (rewrite app_length, numbered_length; destruct r; [congruence|cbn; lia]).
    cbn [In] in H. destruct H as [H|[H|[H|H]]]; [rewrite <- H in Lr; cbn in Lr; lia..|]. apply in_map_iff in H. destruct H as (j & H & _).
    rewrite <- H, numbered_length in Lr. cbn in Lr. lia. }
  split; [apply full_numbered; lia|]. unfold full_fs, listed. split.
  - left. destruct (in_dec _ _ _) as [H|_]; [exfalso; apply (L ["plots"]); [discriminate|exact H]|].
    destruct (path_eq_dec _ _) as [E|_]; [|reflexivity]. apply app_inv_head in E. discriminate E.
  - intros r Hr Hp. destruct (in_dec _ _ _) as [H|_]; [exfalso; exact (L r Hr H)|]. destruct (path_eq_dec _ _); discriminate.
Qed.

(** The 102nd run of a name overwrites the directory numbered 100. *)
Lemma overwrites orc a s c : file_tree s -> s (fit_dir a ++ ["pyoof_out"]) = Some Dir ->
  (forall j, (j <= 100)%nat -> s (numbered (fit_dir a) (fa_name a) j) <> None) -> plain_dir s (numbered (fit_dir a) (fa_name a) 100) ->
  configured a s c -> valid_config c -> cooperative orc -> 0 < tel_pr (fa_tel a) -> three_maps a -> (1 <= fa_order_max a)%nat ->
  exists s' rows out, run (fit_zpoly orc a) s = (Ok tt, s') /\ fitpar_rows s' (numbered (fit_dir a) (fa_name a) 100) 1 rows /\
    map parinit rows = cf_init c /\ answered orc a c 1 (map parinit rows) out /\ params_complete (cf_fixed c) (cf_excluded c) 3 (lo_x out) = Ok (map parfit rows).
Proof.
  intros H1 H2 H3 H4 H5 H6 H7 H8 H9 H10.
  destruct (fit_hundred_and_second orc a s c H1 H2 H3 H4 H5 H6 H7 H8 H9 H10) as (s' & f & Hr & Hf & Hi & Hq).
  assert (L : length (ft_sol f) = length (param_names 1)) by (rewrite param_names_length; apply Hf).
  assert (L2 : length (ft_init f) = length (param_names 1)) by (rewrite <- L; apply Hf).
  exists s', (zip3 (param_names 1) (ft_sol f) (ft_init f)), (ft_out f). rewrite map_parinit, map_parfit by assumption. split; [exact Hr|]. split; [exact Hq|].
  split; [exact Hi|]. destruct Hf as (F1 & F2 & F3 & F4 & F5 & _). split; [|exact F5]. exists (ft_x0 f), (ft_lo f), (ft_hi f). auto.
Qed.
Lemma overwrites_example : exists s', run (fit_zpoly demo_oracle (demo_args "obs" 1)) full_fs = (Ok tt, s') /\
  exists q, full_fs q = Some (File (Params [])) /\ s' q <> full_fs q.
Proof.
  destruct (overwrites demo_oracle (demo_args "obs" 1) full_fs default_config) as (s' & rows & out & Hr & Hq & Hi & _).
  - exact full_tree.
  - unfold full_fs, listed. destruct (in_dec _ _ _) as [_|N]; [reflexivity|]. exfalso. apply N. right. right. left. reflexivity.
  - intros j Hj. change (fit_dir (demo_args "obs" 1)) with ["w"]. cbn [fa_name demo_args]. rewrite full_numbered by exact Hj. discriminate.
  - exact full_inv.
  - reflexivity.
  - exact default_valid.
  - exact demo_cooperative.
  - cbn. lra.
  - apply demo_maps.
  - apply le_n.
  - exists s'. split; [exact Hr|]. exists (numbered ["w"] "obs" 100 ++ ["fitpar_n1.csv"]).
    assert (E : full_fs (numbered ["w"] "obs" 100 ++ ["fitpar_n1.csv"]) = Some (File (Params []))).
    { unfold full_fs, listed. destruct (in_dec _ _ _) as [H|_]; [|destruct (path_eq_dec _ _); [reflexivity|congruence]]. exfalso.
      pose proof full_inv as (_ & _ & N). apply (N ["fitpar_n1.csv"]); [discriminate|discriminate|]. unfold full_fs, listed. destruct (in_dec _ _ _); [reflexivity|contradiction]. }
    split; [exact E|]. rewrite E. intros E2. unfold fitpar_rows in Hq. change (fit_dir (demo_args "obs" 1)) with ["w"] in Hq. cbn [fa_name demo_args] in Hq.
    change ("fitpar_n" ^^ dec 1 ^^ ".csv") with "fitpar_n1.csv" in Hq. rewrite E2 in Hq. assert (rows = []) by congruence. subst rows. discriminate Hi.
Qed.

(** Two concurrent runs of one name. *)
Lemma race_spec oa ob a b s :
  file_tree s -> fit_dir a = fit_dir b -> fa_name a = fa_name b -> fa_config_file a = None -> fa_config_file b = None ->
  usable (fit_dir a) s -> s (base_of a) = Some Dir -> s (numbered (fit_dir a) (fa_name a) 0) = None ->
  cooperative oa -> cooperative ob -> 0 < tel_pr (fa_tel a) -> 0 < tel_pr (fa_tel b) -> three_maps a -> three_maps b ->
  (1 <= fa_order_max b)%nat ->
  exists sched s' rows out,
    interleave sched (fit_zpoly oa a) (fit_zpoly ob b) s = (Ret tt, Ret tt, s') /\
    (forall j, (1 <= j)%nat -> s' (numbered (fit_dir a) (fa_name a) j) = s (numbered (fit_dir a) (fa_name a) j)) /\
    fitpar_rows s' (numbered (fit_dir a) (fa_name a) 0) 1 rows /\ answered ob b default_config 1 (map parinit rows) out /\
    params_complete (cf_fixed default_config) (cf_excluded default_config) 3 (lo_x out) = Ok (map parfit rows).
Proof.
  intros H1 H2 H3 H4 H5 H6 H7 H8 H9 H10 H11 H12 H13 H14 H15.
  destruct (race oa ob a b s H1 H2 H3 H4 H5 H6 H7 H8 H9 H10 H11 H12 H13 H14 H15) as (sched & s' & f & G1 & G2 & Hf & Hi & Hq).
  assert (L : length (ft_sol f) = length (param_names 1)) by (rewrite param_names_length; apply Hf).
  assert (L2 : length (ft_init f) = length (param_names 1)) by (rewrite <- L; apply Hf).
  exists sched, s', (zip3 (param_names 1) (ft_sol f) (ft_init f)), (ft_out f). rewrite map_parinit, map_parfit by assumption.
  split; [exact G1|]. split; [exact G2|]. split; [exact Hq|]. destruct Hf as (F1 & F2 & F3 & F4 & F5 & _). split; [|exact F5]. exists (ft_x0 f), (ft_lo f), (ft_hi f). auto.
Qed.

(** Feasibility of the starting points. *)
Lemma feasible_default orc g a s :
  (forall f x0 lo hi, within Rlt x0 lo hi -> g f x0 lo hi = or_lsq orc f x0 lo hi) ->
  (forall f x0 lo hi out, within Rlt x0 lo hi -> or_lsq orc f x0 lo hi = Ok out -> within Rlt (lo_x out) lo hi) ->
  sized_answers orc -> wf s -> free_number a s -> fa_config_file a = None ->
  run (fit_zpoly (with_lsq orc g) a) s = run (fit_zpoly orc a) s.
Proof.
  intros H1 H2 H3 H4 H5 H6. assert (Hc : configured a s default_config) by (unfold configured; rewrite H6; reflexivity).
  apply (same_fit Rlt (fun x y H => H) orc g H1 H2 a s default_config [1; 2; 3; 4; 5]%nat H3 H4 H5 Hc default_valid); [reflexivity|repeat constructor| |exact default_within].
  intros e He. cbn [In] in He. lia.
Qed.
Lemma within_cons (le : R -> R -> Prop) x xs l ls h hs : within le (x :: xs) (l :: ls) (h :: hs) <-> (le l x /\ le x h) /\ within le xs ls hs.
Proof.
  unfold within. cbn [length]. split.
  - intros (H1 & H2 & H). split; [apply (H 0%nat); lia|]. split; [lia|]. split; [lia|]. intros i Hi. apply (H (S i)). lia.
  - intros (H0 & H1 & H2 & H). split; [lia|]. split; [lia|]. intros [|i] Hi; [exact H0|apply H; lia].
Qed.
Lemma within_delete (le : R -> R -> Prop) ex off x lo hi : within le x lo hi -> within le (delete_at off ex x) (delete_at off ex lo) (delete_at off ex hi).
Proof.
  revert off lo hi. induction x as [|a x IH]; intros off lo hi H.
  - destruct H as (H1 & H2 & _). destruct lo, hi; try discriminate. split; [reflexivity|]. split; [reflexivity|]. intros i Hi. cbn in Hi. lia.
  - destruct lo as [|b lo], hi as [|c hi]; try (destruct H as (H1 & H2 & _); discriminate). apply within_cons in H. destruct H as [H0 H].
    cbn [delete_at]. destruct (existsb (Nat.eqb off) ex); [apply IH, H|]. apply within_cons. split; [exact H0|apply IH, H].
Qed.
Lemma feasible_any orc g a s c ex :
  (forall f x0 lo hi, within Rle x0 lo hi -> g f x0 lo hi = or_lsq orc f x0 lo hi) ->
  (forall f x0 lo hi out, within Rle x0 lo hi -> or_lsq orc f x0 lo hi = Ok out -> within Rle (lo_x out) lo hi) ->
  sized_answers orc -> wf s -> free_number a s -> configured a s c -> valid_config c ->
  cf_excluded c = map Z.of_nat ex -> Sorted lt ex -> (forall e, In e ex -> (e < 8)%nat) ->
  (forall i, (i < 8)%nat -> nth i (cf_bound_min c) 0 <= nth i (cf_init c) 0 <= nth i (cf_bound_max c) 0) ->
  run (fit_zpoly (with_lsq orc g) a) s = run (fit_zpoly orc a) s.
Proof.
  intros H1 H2 H3 H4 H5 Hc Hv E1 E2 E3 Hb. apply (same_fit Rle Rlt_le orc g H1 H2 a s c ex); try assumption.
  apply within_delete. destruct Hv as (L1 & _ & L2 & L3 & _). split; [congruence|]. split; [congruence|]. rewrite L1. exact Hb.
Qed.

(** Further concrete runs. *)
Lemma app_length_nil {A} (d q f : list A) : length q = length d -> q = d ++ f -> f = [].
Proof. intros L E. apply (f_equal (@length _)) in E. rewrite app_length in E. destruct f; [reflexivity|cbn in E; lia]. Qed.
Lemma demo_after name N s1 other : run (fit_zpoly demo_oracle (demo_args name N)) demo_fs = (Ok tt, s1) ->
  file_tree s1 /\ usable ["w"] s1 /\ s1 (numbered ["w"] other (if string_dec other name then 1 else 0)) = None.
Proof.
  intros H. assert (E : s1 = snd (run (fit_zpoly demo_oracle (demo_args name N)) demo_fs)) by (rewrite H; reflexivity).
  split; [rewrite E; apply run_wf, demo_tree|]. split.
  { split; [rewrite E; apply run_dirs; reflexivity|]. right. rewrite E. apply run_dirs. reflexivity. }
  destruct (fit_files _ _ _ _ demo_tree H (demo_free name N)) as (j & Hj & J1 & J2 & _ & _ & _ & J4).
  assert (j = 0)%nat as -> by (destruct j; [reflexivity|]; exfalso; apply (J2 0%nat); [lia|apply demo_numbered]).
  change (fit_dir (demo_args name N)) with ["w"] in J4. change (fa_name (demo_args name N)) with name in J4.
  set (k := if string_dec other name then 1%nat else 0%nat).
  assert (Ne : forall f, numbered ["w"] other k <> numbered ["w"] name 0 ++ f).
  { intros f Ef. assert (f = []) as -> by (eapply app_length_nil; [|exact Ef]; rewrite !numbered_length; reflexivity). rewrite app_nil_r in Ef. apply numbered_inj in Ef.
    unfold k in Ef. destruct (string_dec other name); destruct Ef; congruence. }
  rewrite J4; [apply demo_numbered| | |].
  - intros [t Et]. assert (t = []) as -> by (eapply app_length_nil; [|exact Et]; rewrite !numbered_length; reflexivity). apply (Ne []). rewrite app_nil_r in *. congruence.
  - intros _ _. apply Ne.
  - intros f _. apply Ne.
Qed.
Lemma demo_completes s name N : file_tree s -> usable ["w"] s -> free_number (demo_args name N) s -> exists s', run (fit_zpoly demo_oracle (demo_args name N)) s = (Ok tt, s').
Proof. intros H1 H2 H3. apply (fit_completes _ _ _ default_config); [exact H1|exact H2|exact H3|reflexivity|exact default_valid|exact demo_cooperative|cbn; lra|apply demo_maps]. Qed.
Lemma two_runs : exists s1 s2, run (fit_zpoly demo_oracle (demo_args "obs" 2)) demo_fs = (Ok tt, s1) /\
  free_number (demo_args "obs" 1) s1 /\ run (fit_zpoly demo_oracle (demo_args "obs" 1)) s1 = (Ok tt, s2) /\ numbered ["w"] "a-0" 0 <> numbered ["w"] "a" 0.
Proof.
  destruct (demo_runs "obs" 2) as [s1 H]. destruct (demo_after "obs" 2 s1 "obs" H) as (T & U & F).
  assert (Fr : free_number (demo_args "obs" 1) s1) by (exists 1%nat; split; [lia|exact F]).
  destruct (demo_completes s1 "obs" 1 T U Fr) as [s2 H2]. exists s1, s2. split; [exact H|]. split; [exact Fr|]. split; [exact H2|].
  intros E. apply numbered_inj in E. destruct E as [E _]. discriminate E.
Qed.
Lemma steps_add {A} n m (p : prog A) s : steps (n + m) p s = let '(p1, s1) := steps n p s in steps m p1 s1.
Proof.
  revert p s. induction n as [|n IH]; intros p s; [reflexivity|]. destruct p as [x|e|X o k]; cbn [Nat.add steps].
  - destruct m; reflexivity.
  - destruct m; reflexivity.
  - destruct (exec o s). apply IH.
Qed.
Lemma crashed_run : exists s2, let s1 := snd (steps 4 (fit_zpoly demo_oracle (demo_args "obs" 2)) demo_fs) in
  s1 (numbered ["w"] "obs" 0) = Some Dir /\ free_number (demo_args "obs" 2) s1 /\ run (fit_zpoly demo_oracle (demo_args "obs" 2)) s1 = (Ok tt, s2).
Proof.
  assert (E : snd (steps 4 (fit_zpoly demo_oracle (demo_args "obs" 2)) demo_fs) = upd demo_fs (numbered ["w"] "obs" 0) Dir).
  { unfold fit_zpoly. cbv zeta. cbn [fa_work_dir fa_config_file fa_name fa_pthto demo_args load_config]. cbn [bindP].
    change 4%nat with (2 + 2)%nat. rewrite steps_add, pick_steps; [|reflexivity|apply demo_numbered]. rewrite numbered_snoc, mk_steps_first; [reflexivity|reflexivity|]. rewrite <- numbered_snoc. apply demo_numbered. }
  assert (T : file_tree (upd demo_fs (numbered ["w"] "obs" 0) Dir)) by (rewrite <- E; apply steps_wf, demo_tree).
  assert (Fr : free_number (demo_args "obs" 2) (upd demo_fs (numbered ["w"] "obs" 0) Dir)).
  { exists 1%nat. split; [lia|]. change (fit_dir (demo_args "obs" 2)) with ["w"]. cbn [fa_name demo_args]. rewrite upd_other; [apply demo_numbered|]. intros Ne. apply numbered_inj in Ne. destruct Ne. discriminate. }
  destruct (demo_completes _ "obs" 2 T) with (2 := Fr) as [s2 H2]; [split; [reflexivity|right; reflexivity]|].
  exists s2. cbv zeta. rewrite E. split; [apply upd_same|]. split; [exact Fr|exact H2].
Qed.
Lemma concurrent_example : exists sched s', let a := demo_args "obs" 2 in let b := demo_args "abs" 3 in
  separate a b /\ usable (fit_dir a) demo_fs /\ no_file_100 a demo_fs /\ no_file_100 b demo_fs /\ config_clear a b /\
  interleave sched (fit_zpoly demo_oracle a) (fit_zpoly demo_oracle b) demo_fs = (Ret tt, Ret tt, s') /\
  demo_fs (base_of a) = Some Dir /\ demo_fs (numbered (fit_dir a) (fa_name a) 0) = None.
Proof.
  destruct (demo_runs "obs" 2) as [s1 H]. destruct (demo_after "obs" 2 s1 "abs" H) as (T & U & F).
  assert (Fr : free_number (demo_args "abs" 3) s1) by (exists 0%nat; split; [lia|exact F]).
  destruct (demo_completes s1 "abs" 3 T U Fr) as [s2 H2].
  destruct (sequential_schedule (fit_zpoly demo_oracle (demo_args "obs" 2)) (fit_zpoly demo_oracle (demo_args "abs" 3)) demo_fs) as [sched Hs].
  rewrite H in Hs. cbn [fst snd] in Hs. rewrite H2 in Hs. cbn [fst snd lift] in Hs. exists sched, s2. cbv zeta.
  split; [apply separate_names; [reflexivity|discriminate]|]. split; [apply demo_usable|]. split; [left; apply demo_numbered|]. split; [left; apply demo_numbered|].
  split; [intros q Hq; discriminate Hq|]. split; [exact Hs|]. split; [reflexivity|apply demo_numbered].
Qed.

Lemma overwritten : exists orc a s s' q, file_tree s /\ run (fit_zpoly orc a) s = (Ok tt, s') /\ s q <> None /\ s' q <> s q.
Proof.
  destruct overwrites_example as (s' & Hr & q & E & N). exists demo_oracle, (demo_args "obs" 1), full_fs, s', q. split; [exact full_tree|]. split; [exact Hr|].
  split; [rewrite E; discriminate|exact N].
Qed.
