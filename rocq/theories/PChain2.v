(** From the observations to the look-up table: the table, the law, the end. *)
From Coq Require Import String Ascii List ZArith Lia Lra Permutation.
From Verif Require Import PyBase PyLib Num MZernike MMath MAperture MRad MCore MFs MOut MAct MAux SMath SAux SOut SFit MTab STab MScript SScript SAct SAct2 SLookup SChain.
From Verif Require Import PFs PStr PFit PFit3 PTab PAct4 PLookup PLookup2 PScript PChain.
Import ListNotations.
Open Scope R_scope.
Open Scope string_scope.
Open Scope list_scope.
Open Scope prog_scope.

Lemma table_rows_of isot s ds n tb k rs : Forall2 (summarises s n) ds tb -> fst (run (table_pyoof_out isot ds n) s) = Ok (k, rs) -> rs = tb.
Proof.
  intros F H. unfold table_pyoof_out in H. rewrite run_bind, (rows_complete s ds n tb F) in H. destruct (forallb _ tb); cbn in H; [|discriminate H]. apply Ok_inj in H. congruence.
Qed.

Section Chain.
Variables (orc : oracle) (sc : script) (su : setup) (cwd : path) (files stems : list string) (s s1 : fs) (k : lookup_oracles) (o : actuator) (runs : list path) (old dir : path) (z : nat -> nat -> Z).
Let base := sc_work_dir sc ++ ["pyoof_out"].
Let n := ac_order o.
Hypothesis T : file_tree s.
Hypothesis SZ : sized_answers orc.
Hypothesis SU : sc_setups sc = [su].
Hypothesis N : (1 <= n <= sc_order_max sc)%nat.
Hypothesis IF : input_files cwd s files stems.
Hypothesis ND : NoDup stems.
Hypothesis VIS : forall stem t, In stem stems -> stem <> String "." t.
Hypothesis NR : no_runs (sc_work_dir sc) s.
Hypothesis RB : run (batch orc sc cwd files) s = (Ok tt, s1).
Hypothesis GL : glob_000 s1 base runs.
Hypothesis PM : forall t, Permutation t (lk_sort k t).
Hypothesis OLD : s old = Some (File (Text (table_text z))).

Let OM : (1 <= sc_order_max sc)%nat.
Proof. lia. Qed.
Lemma chain_unaltered : unaltered s s1.
Proof. exact (proj1 (batch_dirs orc sc su cwd files stems s s1 T SU OM IF ND NR RB)). Qed.
Lemma chain_summary : exists tb, Forall2 (summarises s1 n) runs tb.
Proof.
  destruct (batch_dirs orc sc su cwd files stems s s1 T SU OM IF ND NR RB) as (_ & obs & _ & NM & H1 & H2).
  exact (proj1 (proj2 (glob_rows orc sc su stems s1 SZ n runs N VIS GL obs NM H1 H2))).
Qed.
Lemma chain_used tab : Forall2 (summarises s1 n) runs tab ->
  exists us, Forall2 (linked orc sc su cwd files s s1 n) (filter selected_row (lk_sort k tab)) us /\ NoDup us /\
    forall ob K, In (ob, K) us <-> counts orc sc su cwd s files n ob K.
Proof. exact (glob_used orc sc su cwd files stems s s1 T SZ SU OM IF ND NR RB n k runs tab N VIS GL PM). Qed.

Lemma chain_table s2 : ac_min o <= ac_max o -> run (create_lookup k o runs base old dir) s1 = (Ok tt, s2) ->
  exists us g phases T z', NoDup us /\ us <> [] /\ (forall ob K, In (ob, K) us <-> counts orc sc su cwd s files n ob K) /\
    act_fit_grav (lk_solve k) o (map snd us) (map (fun u => Deg (ob_meanel (fst u))) us) = Ok g /\
    generate_phase_pr o g (map Deg [7; 10; 20; 30; 32; 40; 50; 60; 70; 80; 90]) true = Ok phases /\
    at_actuators (lk_spline k) o phases T /\
    s2 (dir ++ [lookup_name k]) = Some (File (Text (table_text z'))) /\
    forall j a x, (j < 11)%nat -> (a < 96)%nat -> elem NaN T j a = Fin x -> rounded (Rmax (ac_min o) (Rmin (ac_max o) (IZR (z j a) - x))) (z' j a).
Proof.
  intros MM RC. destruct (create_table k o runs base old dir s1 s2 z MM (unaltered_some _ _ _ _ chain_unaltered OLD) RC) as (tab & rows & Ks & g & ph & Tb & z' & E1 & E2 & E3 & E4 & E5 & E6 & E7 & E8 & E9).
  destruct chain_summary as [tb FT]. fold n in E1. rewrite (table_rows_of _ _ _ _ _ _ _ FT E1) in *. destruct (chain_used tb FT) as (us & FU & NU & IU).
  subst rows. exists us, g, ph, Tb, z'. split; [exact NU|]. split; [intros ->; inversion FU as [EE|]; apply E3; rewrite <- EE; reflexivity|]. split; [exact IU|].
  assert (X : Ks = map snd us /\ elevations (filter selected_row (lk_sort k tb)) = map (fun u => Deg (ob_meanel (fst u))) us).
  { clear -FU E4. revert Ks E4. induction FU as [|r u rs us (_ & _ & EL & RC) F IH]; intros Ks E4; inversion E4 as [|? K ? Ks' HK HKs]; subst; [split; reflexivity|].
    destruct (IH Ks' HKs) as [-> X2]. cbn. rewrite EL. split; [f_equal; exact (row_coeffs_unique _ _ _ _ _ _ _ HK RC)|f_equal; exact X2]. }
  destruct X as [-> X]. rewrite X in E5. auto 10.
Qed.

Lemma chain_follows s2 h : exact_solver (lk_solve k) -> usable_act o -> 0 <= ac_sr o -> ac_sr o * sqrt 2 <= 73872 / 10000 ->
  (exists els, three_elevations els /\ forall e, In e els -> exists ob K, counts orc sc su cwd s files n ob K /\ e = Deg (ob_meanel ob)) ->
  (forall i, (i < ac_N_K o)%nat -> length (nth i h []) = 3%nat) ->
  (forall ob K i, counts orc sc su cwd s files n ob K -> (3 <= i < ac_N_K o)%nat -> grav_deformation (nth i h []) (Deg (ob_meanel ob)) = Ok (nth i K 0)) ->
  run (create_lookup k o runs base old dir) s1 = (Ok tt, s2) ->
  exists T z', law_at_actuators (lk_spline k) o h T /\ s2 (dir ++ [lookup_name k]) = Some (File (Text (table_text z'))) /\
    forall j a x, (j < 11)%nat -> (a < 96)%nat -> elem NaN T j a = Fin x -> rounded (Rmax (ac_min o) (Rmin (ac_max o) (IZR (z j a) - x))) (z' j a).
Proof.
  intros EX UA S1 S2 (els & (a & b & c & Ia & Ib & Ic & DIST) & HE) LH FOL RC.
  assert (MM : ac_min o <= ac_max o) by apply UA.
  destruct (create_table k o runs base old dir s1 s2 z MM (unaltered_some _ _ _ _ chain_unaltered OLD) RC) as (tab & _ & _ & _ & _ & _ & _ & E1 & _).
  destruct chain_summary as [tb FT]. fold n in E1. rewrite (table_rows_of _ _ _ _ _ _ _ FT E1) in E1. destruct (chain_used tb FT) as (us & FU & NU & IU).
  apply (follows_table k o runs base old dir s1 s2 z tb h); try assumption.
  - exact (proj1 N).
  - exact (unaltered_some _ _ _ _ chain_unaltered OLD).
  - assert (X : forall e, In e els -> In e (elevations (filter selected_row (lk_sort k tb)))).
    { intros e He. destruct (HE e He) as (ob & K & CN & ->). apply IU in CN. destruct (Forall2_right _ _ _ _ FU CN) as (r & Hr & _ & _ & EL & _). cbn [fst] in EL. rewrite <- EL.
      exact (in_map (fun r => Deg (tr_meanel r)) _ _ Hr). }
    exists a, b, c. auto.
  - intros r K i Hr HK Hi. destruct (Forall2_left _ _ _ _ FU Hr) as ([ob K'] & Hu & CN & _ & EL & RC'). cbn [fst snd] in *. rewrite EL, (row_coeffs_unique _ _ _ _ _ _ _ HK RC'). apply FOL; assumption.
Qed.
End Chain.

(** ** It ends *)
Lemma cooperative_sized orc : cooperative orc -> sized_answers orc.
Proof. intros (C & _) f x0 lo hi out E. destruct (C f x0 lo hi) as (out' & E' & L & _). rewrite E in E'. apply Ok_inj in E'. subst out'. exact L. Qed.
Lemma above_known s q p : file_tree s -> above q p -> s p = Some Dir -> s q = Some Dir.
Proof.
  intros [_ T] [t ->]. induction t as [|c t IH] using rev_ind; [rewrite app_nil_r; auto|]. intros H. apply IH. rewrite app_assoc in H. apply (T _ c). rewrite H. discriminate.
Qed.
Lemma outside_base orc sc su cwd files stems s s1 q : file_tree s -> sc_setups sc = [su] -> (1 <= sc_order_max sc)%nat -> input_files cwd s files stems -> NoDup stems ->
  no_runs (sc_work_dir sc) s -> usable (sc_work_dir sc) s -> run (batch orc sc cwd files) s = (Ok tt, s1) -> ~ below (sc_work_dir sc ++ ["pyoof_out"]) q -> s1 q = s q.
Proof.
  intros T SU OM IF ND NR [US _] RB NB. destruct (s q) as [x|] eqn:E.
  - apply (unaltered_some s s1 q x); [exact (proj1 (batch_dirs orc sc su cwd files stems s s1 T SU OM IF ND NR RB))|exact E].
  - destruct (batch_all orc sc cwd files stems s s1 T OM IF (no_runs_room sc su stems s SU ND NR) RB) as (_ & obs & dirs & _ & _ & FD & FRAME).
    rewrite <- E. apply (belongs_apart _ _ _ _ FRAME). intros d Hd. destruct (Forall2_right _ _ _ _ FD Hd) as ([ob u] & _ & a & FO & _ & (j & _ & -> & _) & _). cbn [fst snd] in FO.
    assert (W : fit_dir a = sc_work_dir sc) by (unfold fit_dir; destruct FO as (_ & _ & _ & _ & _ & _ & _ & _ & _ & _ & _ & _ & _ & _ & _ & _ & _ & _ & _ & _ & _ & ->); reflexivity).
    rewrite W. unfold numbered. split.
    + intros [t A]. destruct t as [|c t _] using rev_ind.
      * apply NB. rewrite app_nil_r in A. exists [fa_name a ^^ "-" ^^ pad3 j]. rewrite <- app_assoc. symmetry. exact A.
      * destruct t as [|c' t _] using rev_ind.
        -- change ["pyoof_out"; fa_name a ^^ "-" ^^ pad3 j] with (["pyoof_out"] ++ [fa_name a ^^ "-" ^^ pad3 j]) in A. rewrite app_assoc in A. apply app_inj_tail in A as [A _]. apply NB. exists []. rewrite app_nil_r. symmetry. exact A.
        -- change ["pyoof_out"; fa_name a ^^ "-" ^^ pad3 j] with (["pyoof_out"] ++ [fa_name a ^^ "-" ^^ pad3 j]) in A. rewrite !app_assoc in A. apply app_inj_tail in A as [A _]. apply app_inj_tail in A as [A _].
           rewrite (above_known s q (sc_work_dir sc)) in E; [discriminate E|exact T|exists t; exact A|exact US].
    + intros [t A]. apply NB. exists ((fa_name a ^^ "-" ^^ pad3 j) :: t). rewrite A, <- !app_assoc. reflexivity.
Qed.
Lemma not_base k f : In f (lookup_name k :: lookup_figures k) -> f <> "pyoof_out".
Proof. cbn. intros [<-|[<-|[<-|[<-|[<-|[]]]]]]; discriminate. Qed.

Lemma chain_completes orc sc su cwd files stems il s k o old dir z :
  file_tree s -> sc_setups sc = [su] -> (1 <= ac_order o <= sc_order_max sc)%nat -> (ac_order o <= 5)%nat -> (2 <= ac_resolution o)%nat -> sc_illum sc = Ok il -> cooperative orc -> usable (sc_work_dir sc) s -> 0 < tel_pr (su_tel su) ->
  input_files cwd s files stems -> NoDup stems -> (forall stem t, In stem stems -> stem <> String "." t) -> no_runs (sc_work_dir sc) s ->
  (forall f, In f files -> exists ob d, observed cwd s f ob /\ fittable ob /\ ob_date ob = HStr d /\ lk_isot k d = true) ->
  (forall t, Permutation t (lk_sort k t)) -> ac_min o <= ac_max o -> 0 < ac_pr o -> s old = Some (File (Text (table_text z))) ->
  (exists ob K, counts orc sc su cwd s files (ac_order o) ob K) ->
  (forall us i, (forall ob K, In (ob, K) us -> counts orc sc su cwd s files (ac_order o) ob K) -> (i < ac_N_K o)%nat -> exists x,
     lk_solve k (residual_grav (map (fun u => nth i (snd u) 0) us) (map (fun u => Deg (ob_meanel (fst u))) us)) [1 / 10; 1 / 10; 1 / 10] = Ok x /\ length x = 3%nat) ->
  (forall x m, exists f, lk_spline k x x m = Ok f) ->
  ~ below (sc_work_dir sc ++ ["pyoof_out"]) dir -> (s dir = Some Dir \/ exists p c, dir = p ++ [c] /\ s p = Some Dir /\ s dir = None) ->
  (forall f, In f (lookup_name k :: lookup_figures k) -> s (dir ++ [f]) <> Some Dir) ->
  exists s1, run (batch orc sc cwd files) s = (Ok tt, s1) /\ (exists runs, glob_000 s1 (sc_work_dir sc ++ ["pyoof_out"]) runs) /\
    forall runs, glob_000 s1 (sc_work_dir sc ++ ["pyoof_out"]) runs -> exists s2, run (create_lookup k o runs (sc_work_dir sc ++ ["pyoof_out"]) old dir) s1 = (Ok tt, s2).
Proof.
  intros T SU N N5 RES IL CO US PR IF ND VIS NR OBS PM MM PO OLD (ob0 & K0 & C0) SOL SPL NB DIR FIG.
  assert (OM : (1 <= sc_order_max sc)%nat) by lia.
  destruct (batch_completes orc sc cwd files stems il s T OM IL CO US) as [s1 RB].
  { rewrite SU. intros u [<-|[]]. exact PR. }
  { exact IF. } { exact (no_runs_room sc su stems s SU ND NR). }
  { intros f Hf. destruct (OBS f Hf) as (ob & d & H1 & H2 & _). exists ob. auto. }
  exists s1. split; [exact RB|]. pose proof (cooperative_sized orc CO) as SZ.
  destruct (batch_dirs orc sc su cwd files stems s s1 T SU OM IF ND NR RB) as (UN & obs & OB & NM & H1 & H2). split.
  - exists (map (fun ob => numbered (sc_work_dir sc) (ob_name ob) 0) obs). split.
    + rewrite <- (map_map ob_name (fun c => numbered (sc_work_dir sc) c 0)), NM. clear -ND. induction ND as [|x l Hx ND IH]; cbn; constructor; [|exact IH].
      intros H. apply in_map_iff in H as (y & E & Hy). apply numbered_inj in E as [-> _]. contradiction.
    + intros d. rewrite in_map_iff. split.
      * intros (ob & <- & Ho). exists (ob_name ob ^^ "-"). rewrite sapp_assoc. cbn [String.append]. rewrite numbered_0, <- app_assoc. split; [reflexivity|]. split.
        -- intros t. apply (visible stems VIS). rewrite <- NM. apply in_map. exact Ho.
        -- destruct (H1 ob Ho) as (a & _ & _ & E & _). rewrite numbered_0 in E. rewrite E. discriminate.
      * intros (c & -> & _ & Hd). rewrite <- app_assoc in Hd. cbn [app] in Hd. destruct (H2 _ Hd) as (ob & Ho & E). exists ob. split; [|exact Ho]. rewrite numbered_0, <- app_assoc, E. reflexivity.
  - intros runs GL. destruct (glob_rows orc sc su stems s1 SZ (ac_order o) runs N VIS GL obs NM H1 H2) as (G & [tb FT] & R).
    destruct (chain_used orc sc su cwd files stems s s1 k o runs T SZ SU N IF ND VIS NR RB GL PM tb FT) as (us & FU & NU & IU).
    assert (LK : forall us' rows, Forall2 (linked orc sc su cwd files s s1 (ac_order o)) rows us' -> elevations rows = map (fun u => Deg (ob_meanel (fst u))) us' /\
      forall i col, Forall2 (fun r x => exists K, row_coeffs s1 (sc_work_dir sc ++ ["pyoof_out"]) (ac_order o) (ac_N_K o) r K /\ x = nth i K 0) rows col -> col = map (fun u => nth i (snd u) 0) us').
    { clear. intros us' rows F. induction F as [|r u rs us (_ & _ & EL & RC) F [I1 I2]]; [split; [reflexivity|intros i col H; inversion H; reflexivity]|]. split; [cbn; rewrite EL; f_equal; exact I1|].
      intros i col H. inversion H as [|? x ? c (K & HK & ->) Hc]; subst. cbn. f_equal; [rewrite (row_coeffs_unique _ _ _ _ _ _ _ HK RC); reflexivity|apply I2; exact Hc]. }
    destruct (LK us _ FU) as [LE LC]. apply (completes k o runs _ old dir s1 z tb); try assumption.
    + split; [exact (proj1 N)|exact N5].
    + exact (unaltered_some _ _ _ _ UN OLD).
    + intros r Hr. destruct (Forall2_right _ _ _ _ FT Hr) as (d & Hd & Hs). destruct (R d r Hd Hs) as (ob & a & rows & Ho & _ & _ & _ & _ & ED & _).
      destruct (Forall2_right _ _ _ _ OB Ho) as (f & Hf & Of). destruct (OBS f Hf) as (ob' & d' & O1 & _ & O2 & O3). rewrite (observed_same _ _ _ _ _ Of O1), O2 in ED. injection ED as ->. exact O3.
    + intros E. apply IU in C0. rewrite E in FU. inversion FU; subst. destruct C0.
    + intros r Hr. destruct (Forall2_left _ _ _ _ FU Hr) as (u & _ & _ & _ & _ & RC). exists (snd u). exact RC.
    + intros i col Hi Hc. rewrite LE, (LC i col Hc). apply SOL; [|exact Hi]. intros ob K H. apply IU. exact H.
    + pose proof (outside_base orc sc su cwd files stems s s1 dir T SU OM IF ND NR US RB NB) as ED. rewrite ED. destruct DIR as [DIR|(p & c & E1 & E2 & E3)]; [left; exact DIR|right]. exists p, c. split; [exact E1|]. split; [exact (unaltered_some _ _ _ _ UN E2)|exact E3].
    + intros f Hf. rewrite (outside_base orc sc su cwd files stems s s1 (dir ++ [f]) T SU OM IF ND NR US RB); [apply FIG; exact Hf|].
      intros [t E]. destruct t as [|c t _] using rev_ind.
      * rewrite app_nil_r in E. apply app_inj_tail in E as [_ E]. exact (not_base k f Hf E).
      * rewrite app_assoc in E. apply app_inj_tail in E as [E _]. apply NB. exists t. exact E.
Qed.
