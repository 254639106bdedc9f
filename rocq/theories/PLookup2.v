(** scripts/create_lookup.py: the model of the deformations, unchanged tables, completion. *)
From Coq Require Import String Ascii List ZArith Lia Lra.
From Flocq Require Import Core.Generic_fmt Core.Round_NE.
From Verif Require Import PyBase PyLib Num MMath MAperture MFs MOut MAct MTab MAux MPlot MActPlot MScript SMath SOut SFit SAct SAct2 STab SLookup PStr PFs PFit PPhase PPhase2 PAct PAct2 PAct3 PAct4 PAct5 PAct6 PAct7 PAct8 PTab PActPlot PLookup PLookFig.
Import ListNotations.
Open Scope R_scope.
Open Scope string_scope.
Open Scope list_scope.
Open Scope prog_scope.

(** One column of the gravity fit. *)
Lemma grav_column solve o K_alpha alphas gs k hk d : exact_solver solve -> three_elevations alphas ->
  rect (length alphas) (ac_N_K o) K_alpha -> (k < ac_N_K o)%nat -> length hk = 3%nat ->
  (forall a, (a < length alphas)%nat -> grav_deformation hk (nth a alphas d) = Ok (elem 0 K_alpha a k)) ->
  act_fit_grav solve o K_alpha alphas = Ok gs -> nth k gs [] = hk.
Proof.
  intros Hs (a & b & c & Ia & Ib & Ic & Hd) [LK FK] Hk H3 HK E. unfold act_fit_grav in E.
  pose proof (mapM_nth _ _ _ 0%nat [] k E) as Ek. rewrite seq_length in Ek. specialize (Ek Hk). rewrite seq_nth in Ek by exact Hk. cbn [Nat.add] in Ek.
  destruct (mapM (fun row => py_get row k) K_alpha) as [col|] eqn:Ec; [|discriminate]. cbn [bind] in Ek.
  destruct (solve _ _) as [z|] eqn:Es; [|discriminate]. cbn [bind] in Ek. destruct (Nat.eqb_spec (length z) 3) as [Lz|]; [|discriminate]. apply Ok_inj in Ek.
  assert (Hcol : length col = length alphas /\ forall i, (i < length alphas)%nat -> nth i col 0 = elem 0 K_alpha i k).
  { split; [rewrite <- LK; apply (mapM_length _ _ _ Ec)|]. intros i Hi. pose proof (mapM_nth _ _ _ [] 0 i Ec ltac:(lia)) as X. cbv beta in X.
    apply (py_get_nth _ _ 0) in X. exact (proj2 X). }
  destruct Hcol as [Lc Hcol].
  assert (T : mapM (grav_deformation hk) alphas = Ok col).
  { apply (mapM_exact _ _ _ d 0); [exact Lc|]. intros i Hi. rewrite Hcol by exact Hi. apply HK; assumption. }
  destruct (Hs _ _ _ Es) as [_ Hz].
  { exists hk. split; [exact H3|]. apply residual_grav_zero. exact T. }
  apply residual_grav_zero in Hz. rewrite <- Ek.
  assert (V : forall al, In al alphas -> grav_deformation z al = grav_deformation hk al).
  { intros al Hal. apply (In_nth _ _ d) in Hal. destruct Hal as (i & Hi & <-).
    rewrite (mapM_nth _ _ _ d 0 i Hz Hi). symmetry. apply (mapM_nth _ _ _ d 0 i T Hi). }
  apply (grav_unique z hk a b c); auto.
Qed.

(** Piston and tilt do not matter for the generated maps. *)
Lemma skipn_3_ext (K K' : list R) : length K = length K' -> (forall k, (3 <= k < length K)%nat -> nth k K 0 = nth k K' 0) -> skipn 3 K = skipn 3 K'.
Proof.
  intros L H. destruct K as [|a [|b [|c K]]], K' as [|a' [|b' [|c' K']]]; cbn in L; try discriminate L; try reflexivity. cbn [skipn].
  apply nth_ext with (d := 0) (d' := 0); [lia|]. intros n Hn. apply (H (3 + n)%nat). cbn. lia.
Qed.
Lemma elevation_map_ext o g h al phi : (1 <= ac_order o)%nat -> (forall k, (3 <= k < ac_N_K o)%nat -> nth k g [] = nth k h []) ->
  (forall k, (k < ac_N_K o)%nat -> length (nth k h []) = 3%nat) -> elevation_map o g al phi -> elevation_map o h al phi.
Proof.
  intros Ho E H3 (K & x & y & LK & HK & HP).
  assert (N3 : (3 <= ac_N_K o)%nat). { pose proof (N_K_twice o). nia. }
  destruct (mapM_total (fun k => grav_deformation (nth k h []) al) (seq 0 (ac_N_K o))) as [K' EK'].
  { intros k Hk. apply in_seq in Hk. specialize (H3 k ltac:(lia)). destruct (nth k h []) as [|p [|q [|r [|]]]]; try discriminate H3. rewrite grav_ok. eexists. reflexivity. }
  assert (LK' : length K' = ac_N_K o) by (apply mapM_length in EK'; rewrite seq_length in EK'; exact EK').
  assert (HK' : forall k, (k < ac_N_K o)%nat -> grav_deformation (nth k h []) al = Ok (nth k K' 0)).
  { intros k Hk. pose proof (mapM_nth _ _ _ 0%nat 0 k EK' ltac:(rewrite seq_length; exact Hk)) as X. rewrite seq_nth in X by exact Hk. exact X. }
  exists K', x, y. split; [exact LK'|]. split; [exact HK'|]. rewrite <- HP. rewrite (first_three K), (first_three K') by lia. do 2 f_equal.
  symmetry. apply skipn_3_ext; [lia|]. intros k Hk. rewrite LK in Hk. apply Ok_inj. rewrite <- HK, <- HK' by lia. rewrite E by lia. reflexivity.
Qed.

Lemma elem_Forall {A} (P : A -> Prop) d r c m : rect r c m -> (forall i j, (i < r)%nat -> (j < c)%nat -> P (elem d m i j)) -> Forall (Forall P) m.
Proof.
  intros [L F] H. apply Forall_forall. intros row Hr. apply (In_nth _ _ []) in Hr. destruct Hr as (i & Hi & <-). rewrite Forall_forall in F.
  assert (Lr : length (nth i m []) = c) by (apply F, nth_In; exact Hi).
  apply Forall_forall. intros v Hv. apply (In_nth _ _ d) in Hv. destruct Hv as (j & Hj & <-). apply (H i j); lia.
Qed.
Lemma Forall_elem {A} (P : A -> Prop) d r c m : rect r c m -> Forall (Forall P) m -> forall i j, (i < r)%nat -> (j < c)%nat -> P (elem d m i j).
Proof.
  intros [L F] H i j Hi Hj. rewrite Forall_forall in H, F. assert (X : In (nth i m []) m) by (apply nth_In; lia).
  pose proof (H _ X) as Y. rewrite Forall_forall in Y. apply Y. apply nth_In. rewrite (F _ X). exact Hj.
Qed.

(** Coefficients that vanish beyond piston and tilt give a map of zeros. *)
Lemma zero_phase K pr m x y phi : (3 <= length K)%nat -> (forall k, (3 <= k < length K)%nat -> nth k K 0 = 0) ->
  phase K pr false false m = Ok (x, y, phi) -> Forall (Forall (fun v => v = 0)) phi.
Proof.
  intros L Z H. pose proof H as H'. rewrite first_three in H by exact L.
  set (K0 := repeat 0 (length K)).
  assert (E0 : [0; 0; 0] ++ skipn 3 K = K0).
  { unfold K0. destruct K as [|a [|b [|c K]]]; cbn in L; try lia. cbn [skipn app length repeat]. do 3 f_equal.
    apply nth_ext with (d := 0) (d' := 0); [rewrite repeat_length; reflexivity|]. intros n Hn. rewrite nth_repeat. apply (Z (3 + n)%nat). cbn. lia. }
  rewrite E0 in H. destruct (phase_linear K0 K0 pr false false m 0 0 x y phi x y phi eq_refl H H) as (psi & E & Lp & Hp).
  assert (E1 : map2 (fun k k' => 0 * k + 0 * k') K0 K0 = K0).
  { unfold K0. clear. generalize (length K) as n. induction n as [|n IH]; [reflexivity|]. cbn [repeat map2]. rewrite IH. replace (0 * 0 + 0 * 0) with 0 by ring. reflexivity. }
  rewrite E1 in E. assert (psi = phi) as -> by congruence. apply (elem_Forall _ 0 m m phi (phase_rect _ _ _ _ _ _ _ _ H')).
  intros i j Hi Hj. unfold elem. rewrite (Hp j i Hj Hi). ring.
Qed.

Lemma Forall2_len {A B} (P : A -> B -> Prop) l m : Forall2 P l m -> length l = length m.
Proof. induction 1; cbn; congruence. Qed.
Lemma Forall2_at {A B} (P : A -> B -> Prop) l m a b i : Forall2 P l m -> (i < length l)%nat -> P (nth i l a) (nth i m b).
Proof. intros F. revert i. induction F as [|x y l m H F IH]; intros i Hi; cbn in Hi; [lia|]. destruct i; [exact H|]. apply IH. lia. Qed.

(** ** The model of the deformations *)
Lemma square_displacements o p d : usable_act o -> rect (ac_resolution o) (ac_resolution o) p -> itransform o (Map2 p) = Map2 d -> displacements o p d.
Proof.
  intros Hact Rp Ed. destruct (Nat.eq_dec (ac_resolution o) 0) as [E|E].
  - assert (p = []) as -> by (destruct Rp as [L _]; rewrite E in L; apply length_zero_iff_nil; exact L).
    unfold displacements. rewrite E. split; [|intros i j Hi; lia]. cbn [itransform on_maps map2d map] in Ed. injection Ed as <-. unfold rot90. destruct (mod4_cases (- ac_nrot o)) as [X|[X|[X|X]]]; rewrite X; split; try reflexivity; constructor.
  - destruct (itransform_pixel o _ _ p Hact Rp ltac:(lia) ltac:(lia)) as (d' & Ed' & Hd). rewrite Ed' in Ed. injection Ed as ->. unfold turned_shape in Hd. destruct (Z.even (- ac_nrot o)); exact Hd.
Qed.

Section created.
Variables (k : lookup_oracles) (o : actuator) (runs : list path) (base old dir : path) (s s' : fs) (z : nat -> nat -> Z) (tab : list tab_row) (h : list (list R)).
Hypothesis Hsolve : exact_solver (lk_solve k).
Hypothesis Hact : usable_act o.
Hypothesis Hord : (1 <= ac_order o)%nat.
Hypothesis Hsr : 0 <= ac_sr o.
Hypothesis Hell : ac_sr o * sqrt 2 <= 73872 / 10000.
Hypothesis Hold : s old = Some (File (Text (table_text z))).
Hypothesis Htab : fst (run (table_pyoof_out (lk_isot k) runs (ac_order o)) s) = Ok (ac_order o, tab).
Let rows := filter selected_row (lk_sort k tab).
Hypothesis Hthree : three_elevations (elevations rows).
Hypothesis Hh : forall i, (i < ac_N_K o)%nat -> length (nth i h []) = 3%nat.
Hypothesis Hlaw : forall r K i, In r rows -> row_coeffs s base (ac_order o) (ac_N_K o) r K -> (3 <= i < ac_N_K o)%nat ->
  grav_deformation (nth i h []) (Deg (tr_meanel r)) = Ok (nth i K 0).
Hypothesis Hrun : run (create_lookup k o runs base old dir) s = (Ok tt, s').

Lemma follows_table : exists T z', law_at_actuators (lk_spline k) o h T /\
  s' (dir ++ [lookup_name k]) = Some (File (Text (table_text z'))) /\
  forall j a x, (j < 11)%nat -> (a < 96)%nat -> elem NaN T j a = Fin x -> rounded (Rmax (ac_min o) (Rmin (ac_max o) (IZR (z j a) - x))) (z' j a).
Proof.
  destruct (create_table k o runs base old dir s s' z (proj2 (proj2 (proj2 Hact))) Hold Hrun) as (tab' & rows' & Ks & g & phases & T & z' & H1 & Er & Nr & F & Eg & Ep & HT & Hz & Hr).
  rewrite Htab in H1. apply Ok_inj in H1. injection H1 as <-. fold rows in Er. subst rows'.
  assert (LR : length Ks = length rows) by (symmetry; exact (Forall2_len _ _ _ F)).
  assert (RK : rect (length (elevations rows)) (ac_N_K o) Ks).
  { split; [unfold elevations; rewrite map_length; exact LR|]. clear -F. induction F; constructor; [eapply row_coeffs_length; eassumption|assumption]. }
  assert (Dr : exists r0 : tab_row, True) by (destruct rows as [|r0 t]; [congruence|exists r0; exact I]). destruct Dr as [r0 _].
  assert (Gk : forall i, (3 <= i < ac_N_K o)%nat -> nth i g [] = nth i h []).
  { intros i Hi. apply (grav_column (lk_solve k) o Ks (elevations rows) g i (nth i h []) (Deg (tr_meanel r0)) Hsolve Hthree RK ltac:(lia) (Hh i ltac:(lia))); [|exact Eg].
    intros a Ha. unfold elevations in *. rewrite map_length in Ha. change (Deg (tr_meanel r0)) with ((fun r => Deg (tr_meanel r)) r0). rewrite map_nth.
    unfold elem. apply (Hlaw (nth a rows r0) (nth a Ks []) i); [apply nth_In; exact Ha| |exact Hi]. apply (Forall2_at _ _ _ r0 [] a F Ha). }
  exists T, z'. split; [|split; [exact Hz|exact Hr]]. destruct HT as [RT HT]. split; [exact RT|]. intros j Hj.
  destruct (gen_corrected o g (map Deg alpha_lookup) phases (Deg 0) Hsr Hell Ep) as [Lp Hp].
  destruct (Hp j Hj) as (phi & HE & Rp & Hpix). change (Deg 0) with (Deg (0)) in HE. rewrite (map_nth Deg) in HE.
  destruct (HT j Hj) as (d & f & Ed & Ef & Hf). exists phi, (nth j phases []), d, f. split; [exact (elevation_map_ext o g h _ phi Hord Gk Hh HE)|].
  split; [exact Rp|]. split; [exact Hpix|]. split; [exact (square_displacements o _ d Hact Rp Ed)|]. split; [exact Ef|exact Hf].
Qed.
End created.

Lemma nonzero_rate o : usable_act o -> radians_per_um o <> 0.
Proof.
  intros (Hf & Hs & Hn & _). unfold radians_per_um. pose proof PI_RGT_0. apply Rmult_integral_contrapositive_currified; [|apply Rinv_neq_0_compat].
  - apply Rmult_integral_contrapositive_currified; [destruct Hs; lra|]. apply Rgt_not_eq. apply Rmult_lt_0_compat; lra.
  - apply Rgt_not_eq. apply Rmult_lt_0_compat; [|lra]. apply Rdiv_lt_0_compat; lra.
Qed.

Lemma transpose_n_Forall {A} (P : A -> Prop) c : forall m, Forall (Forall P) m -> Forall (Forall P) (transpose_n c m).
Proof.
  induction c as [|c IH]; intros m F; [constructor|]. cbn [transpose_n]. constructor.
  - apply Forall_forall. intros v Hv. apply in_flat_map in Hv. destruct Hv as (row & Hr & Hv). rewrite Forall_forall in F. specialize (F row Hr). destruct row; cbn in Hv; [destruct Hv|]. destruct Hv as [<-|[]]. inversion F; assumption.
  - apply IH. rewrite Forall_map. eapply Forall_impl; [|exact F]. intros row H. destruct H; [constructor|assumption].
Qed.
Lemma transpose_Forall {A} (P : A -> Prop) m : Forall (Forall P) m -> Forall (Forall P) (transpose m).
Proof. apply transpose_n_Forall. Qed.

(** No deformations beyond piston and tilt: the new table is the old one. *)
Lemma zero_law sp o h T : usable_act o -> (1 <= ac_order o)%nat -> (0 < ac_resolution o)%nat -> ac_min o <= 0 <= ac_max o -> zero_exact sp ->
  (forall i, (3 <= i < ac_N_K o)%nat -> nth i h [] = [0; 0; 0]) -> law_at_actuators sp o h T ->
  forall j a, (j < 11)%nat -> (a < 96)%nat -> elem NaN T j a = Fin 0.
Proof.
  intros Hact Ho Hres Hlim Hsp Hh [_ HT] j a Hj Ha. destruct (HT j Hj) as (phi & p & d & f & (K & x & y & LK & HK & EP) & Rp & Hpix & Ed & Ef & Hf).
  rewrite (Hf a Ha). assert (N3 : (3 <= ac_N_K o)%nat) by (pose proof (N_K_twice o); nia).
  assert (Z : Forall (Forall (fun v => v = 0)) phi).
  { apply (zero_phase K (ac_pr o) (ac_resolution o) x y phi); [lia| |exact EP]. intros i Hi. rewrite LK in Hi. apply Ok_inj. rewrite <- HK by lia. rewrite Hh by exact Hi. rewrite grav_ok. f_equal. ring. }
  assert (Hm : exists r c, rect r c d /\ forall i i', (i < r)%nat -> (i' < c)%nat -> elem NaN d i i' = Fin 0).
  { assert (G : forall i i', (i < ac_resolution o)%nat -> (i' < ac_resolution o)%nat -> let '(v, w) := turned_from (- ac_nrot o) (ac_resolution o) (ac_resolution o) i i' in (v < ac_resolution o)%nat /\ (w < ac_resolution o)%nat).
    { intros i i' Hi Hi'. unfold turned_from. destruct (mod4_cases (- ac_nrot o)) as [E|[E|[E|E]]]; rewrite E; split; lia. }
    exists (ac_resolution o), (ac_resolution o). pose proof Ed as Hd2.
    destruct Hd2 as [Rd Hd2]. split; [exact Rd|]. intros i i' Hi Hi'. rewrite (Hd2 i i' Hi Hi'). specialize (G i i' Hi Hi'). destruct (turned_from _ _ _ i i') as [v w]. destruct G as [Hv Hw].
    destruct (Hpix v w Hv Hw) as (c & _ & _ & ->). rewrite (Forall_elem (fun t => t = 0) 0 _ _ phi (phase_rect _ _ _ _ _ _ _ _ EP) Z v w Hv Hw).
    cbn [ndiv]. destruct (Req_EM_T (radians_per_um o) 0) as [E|_]; [exfalso; exact (nonzero_rate o Hact E)|]. cbn [between]. f_equal.
    replace (0 * c ^ (11 - j) / radians_per_um o) with 0 by (unfold Rdiv; ring). rewrite Rmin_right by lra. apply Rmax_right. lra. }
  destruct Hm as (r & c & Rd & Hd0). apply (Hsp _ _ _ _ (transpose_Forall _ d (elem_Forall (fun v => v = Fin 0) NaN r c d Rd Hd0)) Ef).
Qed.
Lemma zero_table k o runs base old dir s s' z tab : exact_solver (lk_solve k) -> usable_act o -> (1 <= ac_order o)%nat -> (0 < ac_resolution o)%nat -> 0 <= ac_sr o -> ac_sr o * sqrt 2 <= 73872 / 10000 ->
  ac_min o <= 0 <= ac_max o -> zero_exact (lk_spline k) -> s old = Some (File (Text (table_text z))) ->
  (forall j a, (j < 11)%nat -> (a < 96)%nat -> ac_min o <= IZR (z j a) <= ac_max o) ->
  fst (run (table_pyoof_out (lk_isot k) runs (ac_order o)) s) = Ok (ac_order o, tab) ->
  three_elevations (elevations (filter selected_row (lk_sort k tab))) ->
  (forall r K i, In r (filter selected_row (lk_sort k tab)) -> row_coeffs s base (ac_order o) (ac_N_K o) r K -> (3 <= i < ac_N_K o)%nat -> nth i K 0 = 0) ->
  run (create_lookup k o runs base old dir) s = (Ok tt, s') ->
  s' (dir ++ [lookup_name k]) = Some (File (Text (table_text z))).
Proof.
  intros Hs Hact Ho Hres Hsr Hell Hlim Hsp Hold Hz Htab H3 H0 Hrun. set (h := repeat [0; 0; 0] (ac_N_K o)).
  assert (Hh : forall i, (i < ac_N_K o)%nat -> nth i h [] = [0; 0; 0]).
  { intros i Hi. unfold h. rewrite (nth_indep _ [] [0; 0; 0]) by (rewrite repeat_length; exact Hi). apply nth_repeat. }
  destruct (follows_table k o runs base old dir s s' z tab h Hs Hact Ho Hsr Hell Hold Htab H3) as (T & z' & HT & E & Hr); [| |exact Hrun|].
  - intros i Hi. rewrite Hh by exact Hi. reflexivity.
  - intros r K i Hin HK Hi. rewrite (H0 r K i Hin HK Hi), Hh by lia. rewrite grav_ok. f_equal. ring.
  - rewrite E. do 3 f_equal. apply table_text_ext. intros j a Hj Ha. 
    pose proof (zero_law (lk_spline k) o h T Hact Ho Hres Hlim Hsp ltac:(intros; apply Hh; lia) HT j a Hj Ha) as ET.
    specialize (Hr j a 0 Hj Ha ET). destruct (Hz j a Hj Ha) as [Z1 Z2]. rewrite Rminus_0_r, Rmin_right, Rmax_right in Hr by assumption.
    exact (rounded_unique _ _ _ Hr (rounded_IZR _)).
Qed.

(** ** Completion *)
Lemma pdfs_in_dir d l : forall s, s d = Some Dir -> (forall f, In f l -> s (d ++ [f]) <> Some Dir) -> exists s', run (write_pdfs d l) s = (Ok tt, s').
Proof.
  induction l as [|f t IH]; intros s Hd Hf; [eexists; reflexivity|]. cbn [write_pdfs]. rewrite run_bind, (write_file_in_dir d f Pdf s Hd (Hf f (or_introl eq_refl))).
  apply IH.
  - rewrite upd_other; [exact Hd|]. intros E. apply (f_equal (@length string)) in E. rewrite app_length in E. cbn in E. lia.
  - intros g Hg. unfold upd. destruct (path_eq_dec _ _); [discriminate|]. apply Hf. right. exact Hg.
Qed.
Lemma coeffs_exist s base n N rows : (forall r, In r rows -> exists K, row_coeffs s base n N r K) -> exists Ks, Forall2 (row_coeffs s base n N) rows Ks.
Proof.
  induction rows as [|r t IH]; intros H; [exists []; constructor|]. destruct (H r (or_introl eq_refl)) as [K HK]. destruct IH as [Ks F]; [intros; apply H; right; assumption|]. exists (K :: Ks). constructor; assumption.
Qed.
Lemma row_coeffs_unique s base n N r K K' : row_coeffs s base n N r K -> row_coeffs s base n N r K' -> K = K'.
Proof.
  intros (p & E & H) (q & E' & H'). unfold fitpar_rows in *. rewrite E in E'. injection E' as <-.
  destruct H as [[-> L]|(x & Hn & Ex & ->)], H' as [[-> L']|(x' & Hn' & Ex' & ->)]; [reflexivity| | |].
  - rewrite Ex' in L. cbn in L. congruence.
  - rewrite Ex in L'. cbn in L'. congruence.
  - congruence.
Qed.
Lemma completes k o runs base old dir s z tab : ac_min o <= ac_max o -> (1 <= ac_order o <= 5)%nat -> (2 <= ac_resolution o)%nat -> 0 < ac_pr o ->
  s old = Some (File (Text (table_text z))) -> Forall2 (summarises s (ac_order o)) runs tab -> (forall r, In r tab -> lk_isot k (tr_date r) = true) ->
  let rows := filter selected_row (lk_sort k tab) in rows <> [] ->
  (forall r, In r rows -> exists K, row_coeffs s base (ac_order o) (ac_N_K o) r K) ->
  (forall i col, (i < ac_N_K o)%nat -> Forall2 (fun r x => exists K, row_coeffs s base (ac_order o) (ac_N_K o) r K /\ x = nth i K 0) rows col ->
     exists x, lk_solve k (residual_grav col (elevations rows)) [1 / 10; 1 / 10; 1 / 10] = Ok x /\ length x = 3%nat) ->
  (forall x m, exists f, lk_spline k x x m = Ok f) ->
  (s dir = Some Dir \/ exists p c, dir = p ++ [c] /\ s p = Some Dir /\ s dir = None) ->
  (forall f, In f (lookup_name k :: lookup_figures k) -> s (dir ++ [f]) <> Some Dir) ->
  exists s', run (create_lookup k o runs base old dir) s = (Ok tt, s').
Proof.
  intros Hlim [Ho Ho5] Hres Hpr Hold Htab Hiso rows Nr HK Hsol Hsp Hdir Hf. destruct (coeffs_exist _ _ _ _ _ HK) as [Ks F].
  assert (LR : length rows = length Ks) by exact (Forall2_len _ _ _ F).
  assert (Eg : exists g, act_fit_grav (lk_solve k) o Ks (elevations rows) = Ok g).
  { apply mapM_total. intros i Hi. apply in_seq in Hi.
    destruct (mapM_total (fun row => py_get row i) Ks) as [col Ec].
    { intros K HinK. assert (length K = ac_N_K o) by (clear -F HinK; induction F; [destruct HinK|]; destruct HinK as [<-|HinK]; [eapply row_coeffs_length; eassumption|auto]). exists (nth i K 0). apply py_get_ok. lia. }
    rewrite Ec. cbn [bind]. destruct (Hsol i col) as (x & -> & L); [lia| |cbn [bind]; rewrite L; eexists; reflexivity].
    apply mapM_Forall2 in Ec. clear -F Ec. revert col Ec. induction F as [|r K t Kt H F IH]; intros col Ec; [inversion Ec; constructor|]. inversion Ec as [|? y ? colt Hy Ft]; subst. constructor; [|apply IH; assumption].
    exists K. split; [exact H|]. cbv beta in Hy. apply (py_get_nth _ _ 0) in Hy. exact (proj2 Hy). }
  destruct Eg as [g Eg].
  assert (Lg : length g = ac_N_K o /\ forall i, (i < ac_N_K o)%nat -> length (nth i g []) = 3%nat).
  { unfold act_fit_grav in Eg. split; [apply mapM_length in Eg; rewrite seq_length in Eg; exact Eg|]. intros i Hi.
    pose proof (mapM_nth _ _ _ 0%nat [] i Eg ltac:(rewrite seq_length; exact Hi)) as X. cbv beta in X. destruct (mapM _ Ks); [|discriminate X]. cbn [bind] in X. destruct (lk_solve k _ _) as [x|]; [|discriminate X]. cbn [bind] in X.
    destruct (Nat.eqb_spec (length x) 3) as [E|]; [|discriminate X]. apply Ok_inj in X. rewrite <- X. exact E. }
  destruct Lg as [Lg G3]. destruct (gen_ok o g (map Deg alpha_lookup) true Ho Hpr) as [phases Ep]; [lia|intros i Hi; rewrite G3 by exact Hi; lia|].
  destruct (gen_shape o g _ phases Ep) as [Lp Rp].
  destruct (model_coeffs o g (alpha_list o rows)) as [Km EKm]; [lia|intros i Hi; rewrite G3 by exact Hi; lia|].
  destruct (plot_maps (lk_fmt k) o true phases (16, 11 / 2) (Some "Phase-error model") Hpr Hres Lp Rp) as (vmin & vmax & pns & EF1 & _).
  destruct (gravfit_ok o rows Ks Km Ho5) as [fg EF4].
  destruct (init_maps (lk_griddata k) o old z s Hold) as (maps & E0 & _).
  destruct (own_ok (lk_fmt k) (lk_griddata k) o old "Phase-error look-up table" s z _ Hpr Hres Hold E0) as [fl EF2].
  cut (exists figs s', run (create_lookup_plots k o runs base old dir) s = (Ok figs, s')); [intros (figs & s' & H); exists s'; apply create_plots; exists figs; exact H|].
  unfold create_lookup_plots. rewrite run_bind, E0. rewrite run_bind, (table_complete _ s runs _ tab Htab Hiso). cbv zeta. cbn [snd]. fold rows.
  rewrite run_bind, (read_coeffs_ok base _ _ rows Ks s F). rewrite run_lift_bind. unfold elevations in Eg. rewrite Eg. rewrite run_bind. destruct rows as [|r0 rt] eqn:Erows; [congruence|]. cbn [run].
  rewrite run_lift_bind, EKm. rewrite run_lift_bind, Ep. rewrite run_lift_bind, EF1. rewrite run_lift_bind, EF2. rewrite run_lift_bind, EF4. rewrite run_bind, run_call. cbn [exec fst snd].
  assert (D : exists sd, run (if match s dir with Some Dir => true | _ => false end then Ret tt else makedirs dir true) s = (Ok tt, sd) /\ sd dir = Some Dir /\ forall q, q <> dir -> sd q = s q).
  { destruct Hdir as [Hd|(p & c & -> & Hp & Hd)]; rewrite Hd.
    - exists s. split; [reflexivity|]. split; [exact Hd|reflexivity].
    - rewrite (run_makedirs_new p c true s Hp Hd). eexists. split; [reflexivity|]. split; [apply upd_same|]. intros q Hq. apply upd_other. congruence. }
  destruct D as (sd & Ed & Dd & Dk).
  assert (Od : old <> dir) by (intros ->; destruct Hdir as [Hd|(? & ? & _ & _ & Hd)]; congruence).
  rewrite run_bind, Ed. assert (Hold' : sd old = Some (File (Text (table_text z)))) by (rewrite Dk; assumption).
  rewrite run_bind, (read_lookup_run old z sd Hold'). cbn [snd]. rewrite run_lift_bind.
  assert (ET : exists T, match itransform o (Map3 phases) with Map3 l => interp_surface2rings (lk_spline k) o l | Map2 _ => Err IndexError end = Ok T).
  { cbn [itransform on_maps]. apply mapM_total. intros j Hj. apply in_seq in Hj. destruct (gen_loop_spec o g true (Deg 0) (map Deg alpha_lookup) 0 _ phases ltac:(rewrite repeat_length; reflexivity) Ep) as [L _].
    rewrite repeat_length in L. rewrite (py_get_ok _ j []) by (rewrite map_length, L; cbn; lia). cbn [bind]. edestruct Hsp as [f ->]. cbn [bind]. eexists. reflexivity. }
  destruct ET as [T ET]. rewrite ET. apply at_actuators_of in ET. destruct ET as [RT _].
  set (Z0 := map (fun j => map (fun k0 => IZR (z j k0)) (seq 0 96)) (seq 0 11)).
  assert (RZ : rect 11 96 (map2d Fin Z0)).
  { apply rect_map2d. split; [unfold Z0; rewrite map_length, seq_length; reflexivity|]. apply Forall_forall. intros r Hr. unfold Z0 in Hr. apply in_map_iff in Hr. destruct Hr as (j & <- & _). rewrite map_length, seq_length. reflexivity. }
  assert (RM : rect 11 96 (map2 (map2 nsub) (map2d Fin Z0) T)) by (apply map2_rect; assumption).
  assert (Hn : forall f, In f (lookup_name k :: lookup_figures k) -> sd (dir ++ [f]) <> Some Dir).
  { intros f Hin. rewrite Dk; [apply Hf; exact Hin|]. intros E. apply (f_equal (@length string)) in E. rewrite app_length in E. cbn in E. lia. }
  rewrite run_bind, (write_lookup_run (lk_spline k) o (dir ++ [lookup_name k]) (Map2 _) _ sd eq_refl RM Hlim). cbn [exec]. rewrite parent_snoc, Dd.
  assert (EO : forall A (a b : A), match sd (dir ++ [lookup_name k]) with Some Dir => a | _ => b end = b).
  { intros A a b. pose proof (Hn _ (or_introl eq_refl)) as X. destruct (sd (dir ++ [lookup_name k])) as [[]|]; [congruence|reflexivity|reflexivity]. }
  destruct (sd (dir ++ [lookup_name k])) as [[|dc]|] eqn:Es; [exfalso; exact (Hn _ (or_introl eq_refl) Es)| |]; cbn [fst];
  (rewrite run_bind; match goal with |- context [upd sd (dir ++ [lookup_name k]) (File (Text (table_text ?w)))] => destruct (init_maps (lk_griddata k) o (dir ++ [lookup_name k]) w (upd sd (dir ++ [lookup_name k]) (File (Text (table_text w)))) (upd_same _ _ _)) as (maps1 & E1 & _); rewrite E1; destruct (own_ok (lk_fmt k) (lk_griddata k) o (dir ++ [lookup_name k]) "Phase-error look-up table minus phase-error model (FEM + OOF corrections)" _ w _ Hpr Hres (upd_same _ _ _) E1) as [fc EF3] end;
   rewrite run_lift_bind, EF3; rewrite run_bind;
   match goal with |- context [run (write_pdfs dir (lookup_figures k)) ?s9] => assert (PD : exists s', run (write_pdfs dir (lookup_figures k)) s9 = (Ok tt, s')) end; [|destruct PD as [s' ->]; eexists _, s'; reflexivity];
   apply pdfs_in_dir; [rewrite upd_other; [exact Dd|intros E; apply (f_equal (@length string)) in E; rewrite app_length in E; cbn in E; lia]
   |intros f Hin; unfold upd; destruct (path_eq_dec _ _); [discriminate|apply Hn; right; exact Hin]]).
Qed.
