(** Reading the results of a run that was killed or is still running. *)
From Coq Require Import String Ascii List Lia Classical_Prop.
From Verif Require Import PyBase PyLib Num MZernike MMath MAperture MRad MCore MFs MOut MTab MPlot MAux MScript SOut SFit SOrder PFs PFit PFit3 PFit4 PCrash PCrash2 PConc PConc2 PTab STab SPool PPool PPool2.
Import ListNotations.
Open Scope R_scope.
Open Scope string_scope.
Open Scope list_scope.
Open Scope prog_scope.

(** Every complete file of [st] is a file of [sf], with the same content. *)
Definition agree (st sf : fs) : Prop := forall q, complete st q -> sf q = st q.
(** A result obtained in [st] would have been obtained in [sf]; nothing is written. *)
Definition careful {A} (p : prog A) : Prop := (forall s, snd (run p s) = s) /\
  forall st sf a, agree st sf -> fst (run p st) = Ok a -> fst (run p sf) = Ok a.
Definition hopeless {A} (p : prog A) : Prop := forall s a, fst (run p s) <> Ok a.

Lemma careful_ret {A} (a : A) : careful (Ret a).
Proof. split; [reflexivity|]. intros st sf b _ H. exact H. Qed.
Lemma careful_raise {A} e : careful (@Raise A e).
Proof. split; [reflexivity|]. intros st sf b _ H. exact H. Qed.
Lemma careful_lift {A} (r : res A) : careful (lift r).
Proof. destruct r; [apply careful_ret|apply careful_raise]. Qed.
Lemma run_split {A} (p : prog A) s : run p s = (fst (run p s), snd (run p s)).
Proof. destruct (run p s); reflexivity. Qed.
Lemma careful_bind {A B} (p : prog A) (f : A -> prog B) : careful p -> (forall a, careful (f a)) -> careful (bindP p f).
Proof.
  intros [P1 P2] F. split.
  - intros s. rewrite run_bind, run_split, P1. destruct (fst (run p s)); [apply F|reflexivity].
  - intros st sf b G H. rewrite run_bind, run_split, P1 in H |- *. destruct (fst (run p st)) as [a|e] eqn:E; [|discriminate H].
    rewrite (P2 st sf a G E). exact (proj2 (F a) st sf b G H).
Qed.
Lemma careful_read {A} q (f : doc -> prog A) : hopeless (f Partial) -> (forall d, careful (f d)) -> careful (bindP (callE (Read q)) f).
Proof.
  intros N F. split.
  - intros s. rewrite run_bind, run_callE. cbn [exec]. destruct (s q) as [[|d]|]; [reflexivity|apply F|reflexivity].
  - intros st sf b G H. rewrite run_bind, run_callE in H |- *. cbn [exec] in *. destruct (st q) as [[|d]|] eqn:E; try discriminate H.
    assert (D : d <> Partial). { intros ->. exact (N st b H). }
    rewrite (G q), E by (exists d; auto). exact (proj2 (F d) st sf b G H).
Qed.
Lemma hopeless_raise {A} e : hopeless (@Raise A e).
Proof. intros s a H. discriminate H. Qed.
Lemma hopeless_bind {A B} (p : prog A) (f : A -> prog B) : (forall a, hopeless (f a)) -> hopeless (bindP p f).
Proof. intros N s b H. rewrite run_bind in H. destruct (run p s) as [[a|e] s']; [exact (N a s' b H)|discriminate H]. Qed.

Lemma agree_cut orc a s sf k : file_tree s -> free_number a s -> run (fit_zpoly orc a) s = (Ok tt, sf) -> agree (snd (steps k (fit_zpoly orc a) s)) sf.
Proof.
  intros W F R q H. destruct (s q) as [nd|] eqn:E.
  - pose proof (proj1 (always_steps _ _ _ k (fit_always orc a s W F)) q) as U1. pose proof (always_run _ _ _ (fit_always orc a s W F) q) as U2. rewrite R in U2.
    cbn [snd] in U2. rewrite U1, U2 by congruence. reflexivity.
  - symmetry. exact (complete_final orc a s sf k q W F R E H).
Qed.

Ltac careful_step :=
  first
  [ match goal with |- careful (Ret _) => apply careful_ret | |- careful (Raise _) => apply careful_raise | |- careful (lift _) => apply careful_lift end
  | match goal with |- careful (bindP (callE (Read _)) _) => apply careful_read; [|intros ?] end
  | match goal with |- careful (bindP _ _) => apply careful_bind; [|intros ?] end
  | match goal with |- careful (if ?x then _ else _) => destruct x end
  | match goal with |- careful (match ?x with _ => _ end) => destruct x end ].
Ltac careful_auto := cbv zeta; repeat careful_step.

Ltac hopeless_auto := cbv zeta; repeat first
  [ match goal with |- hopeless (Raise _) => apply hopeless_raise end
  | match goal with |- hopeless (bindP ?p _) => let p' := eval cbn [lift read_phase] in p in match p' with Raise ?e => exact (hopeless_raise e) end end
  | match goal with |- hopeless (bindP _ _) => apply hopeless_bind; intros ? end ].
Lemma careful_row d n : careful (table_row d n).
Proof. unfold table_row. careful_auto; hopeless_auto. Qed.
Lemma careful_rows ds n : careful (table_rows ds n).
Proof. induction ds as [|d t IH]; cbn [table_rows]; [apply careful_ret|]. apply careful_bind; [apply careful_row|intros r]. apply careful_bind; [exact IH|intros rs; apply careful_ret]. Qed.
Lemma careful_table isot ds n : careful (table_pyoof_out isot ds n).
Proof. unfold table_pyoof_out. apply careful_bind; [apply careful_rows|intros rs]. careful_auto. Qed.
Lemma careful_parfit p : careful (read_parfit p).
Proof. unfold read_parfit. careful_auto. apply hopeless_raise. Qed.
Lemma careful_coeffs base n N rows : careful (read_coeffs base n N rows).
Proof.
  induction rows as [|r t IH]; cbn [read_coeffs]; [apply careful_ret|]. apply careful_bind; [apply careful_parfit|intros pf].
  apply careful_bind; [apply careful_lift|intros K]. apply careful_bind; [exact IH|intros Ks; apply careful_ret].
Qed.
Lemma careful_matrix p : careful (read_matrix p).
Proof. unfold read_matrix. careful_auto; hopeless_auto. Qed.
Lemma careful_info p : careful (read_info p).
Proof. unfold read_info. careful_auto; hopeless_auto. Qed.
Lemma careful_open p : careful (open_fits p).
Proof. unfold open_fits. careful_auto; hopeless_auto. Qed.
Lemma careful_extract cwd p : careful (extract_data_pyoof cwd p).
Proof. unfold extract_data_pyoof. destruct (negb _); [apply careful_raise|]. apply careful_bind; [apply careful_open|intros f]. cbv zeta. destruct (negb _); [apply careful_raise|]. careful_auto. Qed.
Lemma careful_effelsberg cwd p : careful (extract_data_effelsberg cwd p).
Proof. unfold extract_data_effelsberg. destruct (negb _); [apply careful_raise|]. cbv zeta. apply careful_bind; [apply careful_open|intros f]. careful_auto. Qed.

(** The figures: the directory plots may have to be made first. *)
Definition figures (gd : list R -> list R -> list num -> list R -> list R -> list (list num)) (pt : printers) (strict : bool)
    (d : path) (n : nat) (illum : list R -> R -> res (R -> R -> R)) (tel : telgeo) (g : angle_unit) (plim : option (R * R * (R * R))) : prog (list figure) :=
  params <- read_parfit (d ++ [fitpar_name n]) ;;
  i <- read_info (d ++ ["pyoof_info.yml"]) ;;
  beam <- read_matrix (d ++ ["beam_data.csv"]) ;;
  res_n <- read_matrix (d ++ ["res_n" ^^ dec n ^^ ".csv"]) ;;
  u <- read_matrix (d ++ ["u_data.csv"]) ;;
  v <- read_matrix (d ++ ["v_data.csv"]) ;;
  cov <- read_matrix (d ++ ["cov_n" ^^ dec n ^^ ".csv"]) ;;
  corr <- read_matrix (d ++ ["corr_n" ^^ dec n ^^ ".csv"]) ;;
  figs <- lift (fit_figures gd pt strict illum tel g plim n params i beam res_n u v cov corr) ;;
  Ret figs.
Lemma careful_figures gd pt strict d n illum tel g plim : careful (figures gd pt strict d n illum tel g plim).
Proof.
  unfold figures. apply careful_bind; [apply careful_parfit|intros ?]. apply careful_bind; [apply careful_info|intros ?].
  do 6 (apply careful_bind; [apply careful_matrix|intros ?]). apply careful_bind; [apply careful_lift|intros ?]. apply careful_ret.
Qed.
Lemma draw_split gd pt strict d n illum tel g plim : draw_fit_path gd pt strict d n illum tel g plim false =
  (b <- call (Exists (d ++ ["plots"])) ;; (if b then Ret tt else makedirs (d ++ ["plots"]) false) ;;; figures gd pt strict d n illum tel g plim).
Proof. reflexivity. Qed.
Lemma draw_careful gd pt strict d n illum tel g plim st sf figs : file_tree sf -> agree st sf ->
  fst (run (draw_fit_path gd pt strict d n illum tel g plim false) st) = Ok figs -> fst (run (draw_fit_path gd pt strict d n illum tel g plim false) sf) = Ok figs.
Proof.
  intros W G. rewrite draw_split. set (p := figures _ _ _ _ _ _ _ _ _).
  assert (X : forall st1, agree st1 sf -> fst (run p st1) = Ok figs -> fst (run (b <- call (Exists (d ++ ["plots"])) ;; (if b then Ret tt else makedirs (d ++ ["plots"]) false) ;;; p) sf) = Ok figs).
  { intros st1 G1 H.
    assert (D : sf d = Some Dir).
    { pose proof H as H'. unfold p, figures in H'. rewrite run_bind in H'. unfold read_parfit at 1 in H'. rewrite run_bind, run_callE in H'. cbn [exec] in H'.
      destruct (st1 (d ++ [fitpar_name n])) as [[|dc]|] eqn:E; try discriminate H'.
      assert (N : dc <> Partial) by (intros ->; discriminate H').
      apply (proj2 W) with (c := fitpar_name n). rewrite (G1 (d ++ [fitpar_name n])) by (exists dc; auto). rewrite E. discriminate. }
    rewrite run_bind, run_call. cbn [exec fst snd]. destruct (sf (d ++ ["plots"])) as [nd|] eqn:E.
    - cbn [bindP]. exact (proj2 (careful_figures _ _ _ _ _ _ _ _ _) st1 sf figs G1 H).
    - rewrite run_bind, (run_makedirs_new d "plots" false sf D E).
      apply (proj2 (careful_figures gd pt strict d n illum tel g plim) st1 _ figs); [|exact H].
      intros q C. rewrite upd_other; [exact (G1 q C)|]. intros ->. rewrite (G1 _ C) in E. destruct C as (dc & _ & C1). congruence. }
  intros H. rewrite run_bind, run_call in H. cbn [exec fst snd] in H. destruct (st (d ++ ["plots"])) as [nd|] eqn:E.
  - exact (X st G H).
  - rewrite run_bind in H.
    pose proof (always_run _ _ _ (mkdirs_way _ _ st (makedirs_only (d ++ ["plots"]) false))) as DW.
    destruct (run (makedirs (d ++ ["plots"]) false) st) as [[[]|e] st1]; [|discriminate H]. cbn [snd] in DW. apply (X st1); [|exact H].
    intros q C. destruct (DW q) as [E1|(_ & E1 & _)].
    + rewrite E1. apply G. destruct C as (dc & C1 & C2). exists dc. split; [exact C1|congruence].
    + destruct C as (dc & _ & C2). congruence.
Qed.

Lemma table_cut isot dirs n orc a s sf k x : file_tree s -> free_number a s -> run (fit_zpoly orc a) s = (Ok tt, sf) ->
  fst (run (table_pyoof_out isot dirs n) (snd (steps k (fit_zpoly orc a) s))) = Ok x -> fst (run (table_pyoof_out isot dirs n) sf) = Ok x.
Proof. intros W F R. apply (proj2 (careful_table isot dirs n)). exact (agree_cut orc a s sf k W F R). Qed.
Lemma draw_cut gd pt strict d n illum tel g plim orc a s sf k figs : file_tree s -> free_number a s -> run (fit_zpoly orc a) s = (Ok tt, sf) ->
  fst (run (draw_fit_path gd pt strict d n illum tel g plim false) (snd (steps k (fit_zpoly orc a) s))) = Ok figs ->
  fst (run (draw_fit_path gd pt strict d n illum tel g plim false) sf) = Ok figs.
Proof.
  intros W F R. apply draw_careful; [|exact (agree_cut orc a s sf k W F R)].
  destruct (steps_finish (fit_zpoly orc a) s) as [m Hm]. pose proof (steps_wf m (fit_zpoly orc a) s W) as X. rewrite Hm, R in X. exact X.
Qed.

Lemma agree_pool (fits : list (oracle * fit_args)) s sched ps s1 sched' ps' s2 : independent fits s -> (forall f, In f fits -> free_number (snd f) s) ->
  (forall f, In f fits -> s (base_of (snd f)) = Some Dir) -> (forall o a, In (o, a) fits -> exists sf, run (fit_zpoly o a) s = (Ok tt, sf)) ->
  interleave_all sched (all_fits fits) s = (ps, s1) -> interleave_all sched' (all_fits fits) s = (ps', s2) -> (forall p, In p ps' -> finished p <> None) -> agree s1 s2.
Proof.
  intros Hi Hf Hb Hr H1 H2 Hp. pose proof Hi as (W & _). destruct (pool fits s sched ps s1 Hi H1) as (L1 & K1 & N1). destruct (pool fits s sched' ps' s2 Hi H2) as (L2 & K2 & N2).
  destruct (power_cut fits s sched ps s1 Hi Hf H1) as (_ & U1 & _). destruct (power_cut fits s sched' ps' s2 Hi Hf H2) as (_ & U2 & _).
  intros q C. destruct (classic (exists f, In f fits /\ (region (snd f) q \/ q = base_of (snd f)))) as [([o a] & If & [Hq|Hq])|No].
  - cbn [snd] in Hq. pose proof If as If'. apply In_nth_error in If as [i Ei].
    assert (X : forall l, length l = length fits -> exists p : prog unit, nth_error l i = Some p).
    { intros l El. destruct (nth_error l i) eqn:Ep; [eauto|]. apply nth_error_None in Ep. assert (i < length fits)%nat by (apply nth_error_Some; congruence). lia. }
    destruct (X ps L1) as [p Ep]. destruct (X ps' L2) as [p' Ep']. destruct (K1 i o a p Ei Ep) as ((k & Hk) & _). destruct (K2 i o a p' Ei Ep') as (_ & Fin).
    destruct (finished p') as [r|] eqn:Er; [|exfalso; exact (Hp p' (nth_error_In _ _ Ep') Er)]. destruct (Fin r eq_refl) as [_ Hs2].
    rewrite (Hs2 q Hq). destruct (Hr o a If') as [sf R]. rewrite R. cbn [snd]. rewrite (Hk q Hq). apply (agree_cut o a s sf k W (Hf _ If') R).
    destruct C as (dc & C1 & C2). exists dc. rewrite <- (Hk q Hq). auto.
  - cbn [snd] in Hq. subst q. specialize (Hb _ If). cbn [snd] in Hb. rewrite U1, U2 by (rewrite Hb; discriminate). reflexivity.
  - rewrite N1, N2; [reflexivity|intros g Hg; split; intros X; apply No; exists g; auto..].
Qed.
Lemma pool_tree (fits : list (oracle * fit_args)) s sched ps s1 : independent fits s -> (forall f, In f fits -> free_number (snd f) s) ->
  interleave_all sched (all_fits fits) s = (ps, s1) -> file_tree s1.
Proof. intros Hi Hf H. exact (proj1 (power_cut fits s sched ps s1 Hi Hf H)). Qed.

(** An order that is not there (yet). *)
Lemma table_missing isot before d after n s rs : Forall2 (summarises s n) before rs ->
  s (d ++ ["pyoof_info.yml"]) = None \/ (exists dc, s (d ++ ["pyoof_info.yml"]) = Some (File dc)) /\ s (d ++ ["phase_n" ^^ dec n ^^ ".csv"]) = None ->
  run (table_pyoof_out isot (before ++ d :: after) n) s = (Err FileNotFoundError, s).
Proof.
  intros F M. unfold table_pyoof_out. rewrite run_bind.
  assert (X : run (table_rows (before ++ d :: after) n) s = (Err FileNotFoundError, s)); [|rewrite X; reflexivity].
  revert rs F. induction before as [|b t IH]; intros rs F.
  - cbn [app table_rows]. rewrite run_bind. unfold table_row. rewrite run_read. destruct M as [M|((dc & M) & M2)]; rewrite M; [reflexivity|]. rewrite run_read, M2. reflexivity.
  - inversion F as [|? r ? rs' F1 F2]; subst. cbn [app table_rows]. rewrite run_bind. apply row_complete in F1. destruct (row_run s b n) as [x Ex]. rewrite Ex in F1 |- *. cbn [fst] in F1. rewrite F1.
    rewrite run_bind, (IH rs' F2). reflexivity.
Qed.
