(** EffelsbergActuator.plot. *)
From Coq Require Import String List ZArith Lia Lra Sorted.
From Verif Require Import PyBase PyLib Num MMath MAperture MFs MAct MPlot MActPlot SAct SAct2 SPlot PFs PAct PAct3 PAct5 PAct8 PPlot PPlot2 PPlot3 PPlot4.
Import ListNotations.
Open Scope R_scope.
Open Scope string_scope.
Open Scope list_scope.

Section plotted.
Variables (fmt : R -> string) (o : actuator) (rad : bool) (data : list (list (list num))) (size : R * R) (title : option string).
Hypothesis Hr : 0 < plot_radius o rad.
Hypothesis Hn : (2 <= ac_resolution o)%nat.
Let n := ac_resolution o.
Let x := linspace (- plot_radius o rad) (plot_radius o rad) n.

Lemma one_panel m vmin vmax t : rect n n m ->
  exists ct, contour x x m (map Fin (shown_levels o rad)) = Ok ct /\ ct_levels ct = map Fin (shown_levels o rad) /\
   portrays {| pn_image := {| im_data := shown_all m; im_x0 := - plot_radius o rad; im_x1 := plot_radius o rad; im_y0 := - plot_radius o rad; im_y1 := plot_radius o rad;
                         im_lower := true; im_scale := Some (vmin, vmax) |};
          pn_contour := Some ct; pn_title := t; pn_xlabel := ""; pn_ylabel := ""; pn_bar := plot_bar rad;
          pn_xlim := None; pn_ylim := None; pn_xticks := []; pn_yticks := [] |} x x (elem NaN m).
Proof.
  intros Hz. pose proof (spaced_linspace (- plot_radius o rad) (plot_radius o rad) n Hn) as S.
  assert (N1 : 0 < INR (n - 1)) by (apply lt_0_INR; unfold n; lia).
  assert (P1 : 0 <= (plot_radius o rad - - plot_radius o rad) / INR (n - 1)) by (apply Rmult_le_pos; [lra|apply Rlt_le, Rinv_0_lt_compat, N1]).
  rewrite (contour_ok _ _ m _ n n Hn Hn Hz (proj1 S) (proj1 S)). eexists. split; [reflexivity|]. split; [reflexivity|].
  eapply (portrays_spaced _ _ _ m (elem NaN m) _ _ _ _ n n); try exact S; try exact P1; try reflexivity; try (unfold n; lia); cbn [pn_image im_x0 im_x1 im_y0 im_y1].
  + apply array_of_elem, Hz.
  + field; lra.
  + field; lra.
Qed.

Lemma plot_spec : (forall j, (j < 11)%nat -> (j < length data)%nat /\ rect n n (nth j data [])) ->
  exists vmin vmax panels, np_min (concat (concat data)) = Ok vmin /\ np_max (concat (concat data)) = Ok vmax /\
    act_plot fmt o rad data size title = Ok {| fg_size := size; fg_title := match title with Some t => t | None => "" end; fg_panels := panels |} /\ length panels = 11%nat /\
    forall j, (j < 11)%nat -> exists pn ct, nth_error panels j = Some pn /\ portrays pn x x (elem NaN (nth j data [])) /\
      pn_title pn = "$\alpha=" ^^ fmt (nth j alpha_lookup 0) ^^ "$ deg" /\ pn_bar pn = plot_bar rad /\
      im_x0 (pn_image pn) = - plot_radius o rad /\ im_x1 (pn_image pn) = plot_radius o rad /\ im_y0 (pn_image pn) = - plot_radius o rad /\ im_y1 (pn_image pn) = plot_radius o rad /\
      im_scale (pn_image pn) = Some (vmin, vmax) /\ pn_contour pn = Some ct /\ ct_levels ct = map Fin (shown_levels o rad).
Proof.
  intros Hd. assert (NE : exists v w, concat (concat data) = v :: w).
  { destruct (Hd 0%nat ltac:(lia)) as [L0 [L F]]. destruct data as [|m t]; [cbn in L0; lia|]. cbn [nth] in L, F. destruct m as [|row m]; [cbn in L; unfold n in L; lia|].
    inversion F as [|? ? Lr _]; subst. destruct row as [|v row]; [cbn in Lr; unfold n in Lr; lia|]. cbn [concat app]. eauto. }
  destruct NE as (v & w & EC). unfold act_plot. fold n. fold x. rewrite EC. cbn [np_min np_max bind].
  set (vmin := fold_left nmin w v). set (vmax := fold_left nmax w v).
  match goal with |- context [mapM ?g ?l] => destruct (mapM_total g l) as [panels Ep] end.
  { intros [j al] Hin. apply in_combine_l in Hin. apply in_seq in Hin. destruct (Hd j ltac:(lia)) as [L R]. rewrite (py_get_ok data j []) by exact L. cbn [bind].
    destruct (one_panel (nth j data []) vmin vmax "" R) as (ct & -> & _). cbn [bind]. eexists. reflexivity. }
  exists vmin, vmax, panels. split; [reflexivity|]. split; [reflexivity|]. rewrite Ep. cbn [bind]. split; [reflexivity|]. pose proof (mapM_length _ _ _ Ep) as LP. cbn in LP. split; [exact LP|].
  intros j Hj. pose proof (PAct5.mapM_nth _ _ _ (0%nat, 0) {| pn_image := {| im_data := []; im_x0 := 0; im_x1 := 0; im_y0 := 0; im_y1 := 0; im_lower := true; im_scale := None |}; pn_contour := None; pn_title := ""; pn_xlabel := ""; pn_ylabel := ""; pn_bar := ""; pn_xlim := None; pn_ylim := None; pn_xticks := []; pn_yticks := [] |} j Ep Hj) as X.
  rewrite combine_nth in X by reflexivity. rewrite seq_nth in X by exact Hj. cbn [plus] in X. destruct (Hd j Hj) as [L R]. rewrite (py_get_ok data j []) in X by exact L. cbn [bind] in X.
  destruct (one_panel (nth j data []) vmin vmax ("$\alpha=" ^^ fmt (nth j alpha_lookup 0) ^^ "$ deg") R) as (ct & Ec & El & Pp). rewrite Ec in X. cbn [bind] in X. apply Ok_inj in X.
  eexists _, ct. split; [apply nth_error_nth'; rewrite LP; exact Hj|]. rewrite <- X. split; [exact Pp|]. cbn. repeat (split; [reflexivity|]). exact El.
Qed.

(** Fewer than eleven maps. *)
Lemma plot_few : (0 < length data < 11)%nat -> Forall (fun m => rect n n m) data -> act_plot fmt o rad data size title = Err IndexError.
Proof.
  intros Hl F. assert (NE : exists v w, concat (concat data) = v :: w).
  { destruct data as [|m t]; [cbn in Hl; lia|]. inversion F as [|? ? [L Fm] _]; subst. destruct m as [|row m]; [cbn in L; unfold n in L; lia|].
    inversion Fm as [|? ? Lr _]; subst. destruct row as [|v row]; [cbn in Lr; unfold n in Lr; lia|]. cbn [concat app]. eauto. }
  destruct NE as (v & w & EC). unfold act_plot. fold n. fold x. rewrite EC. cbn [np_min np_max bind].
  match goal with |- bind (mapM ?g ?l) _ = _ => assert (Y : forall l', (forall j al, In (j, al) l' -> (j < 11)%nat) -> (exists j al, In (j, al) l' /\ (length data <= j)%nat) -> mapM g l' = Err IndexError) end.
  { induction l' as [|[j al] l' IH]; intros H1 (j0 & a0 & H2 & H3); [destruct H2|]. cbn [mapM]. destruct (Nat.lt_ge_cases j (length data)) as [Hj|Hj].
    - rewrite (py_get_ok data j []) by exact Hj. cbn [bind]. rewrite Forall_forall in F. rewrite (contour_ok x x (nth j data []) _ n n Hn Hn (F _ (nth_In _ _ Hj)) (linspace_length _ _ _) (linspace_length _ _ _)). cbn [bind].
      rewrite IH; [reflexivity|intros; eapply H1; right; eassumption|]. destruct H2 as [E|H2]; [injection E as <- <-; lia|]. exists j0, a0. split; assumption.
    - unfold py_get. rewrite (proj2 (nth_error_None data j)) by exact Hj. reflexivity. }
  rewrite Y; [reflexivity| |].
  - intros j al H. apply in_combine_l in H. apply in_seq in H. lia.
  - exists 10%nat, 90. split; [cbn; tauto|lia].
Qed.
End plotted.

(** The phases of a look-up file. *)
Lemma plot_lookup_spec fmt gd o fname size title z s : 0 < ac_pr o -> (2 <= ac_resolution o)%nat -> s fname = Some (File (Text (table_text z))) ->
  exists maps fig, run (plot_lookup fmt gd o fname size title) s = (Ok fig, s) /\ length maps = 11%nat /\ length (fg_panels fig) = 11%nat /\
  forall a, (a < 11)%nat ->
    (rect (ac_resolution o) (ac_resolution o) (nth a maps []) /\
     forall j i, (j < ac_resolution o)%nat -> (i < ac_resolution o)%nat ->
      let x := nth i (linspace (- ac_sr o) (ac_sr o) (ac_resolution o)) 0 in
      let y := nth j (linspace (- ac_sr o) (ac_sr o) (ac_resolution o)) 0 in
      elem 0 (nth a maps []) j i = if Rle_dec (ac_sr o ^ 2) (x ^ 2 + y ^ 2) then 0
        else nan_to_num (gd (combine act_x act_y) (map (fun k => IZR (z a k)) (seq 0 96)) (x, y))) /\
    exists pn f, nth_error (fg_panels fig) a = Some pn /\
      portrays pn (linspace (- ac_pr o) (ac_pr o) (ac_resolution o)) (linspace (- ac_pr o) (ac_pr o) (ac_resolution o)) f /\
      (forall r c, (r < ac_resolution o)%nat -> (c < ac_resolution o)%nat ->
         f r c = let '(r', c') := turned_from (ac_nrot o) (ac_resolution o) (ac_resolution o) r c in Fin (radians_per_um o * elem 0 (nth a maps []) r' c')) /\
      pn_title pn = "$\alpha=" ^^ fmt (nth a alpha_lookup 0) ^^ "$ deg".
Proof.
  intros Hp Hn Hf. destruct (init_maps gd o fname z s Hf) as (maps & Ei & Lm & Hm). set (n := ac_resolution o) in *.
  set (l := map (fun m => map2d (nmul (Fin (ac_tfactor o))) (rot90 (ac_nrot o) m)) (map (map2d Fin) maps)).
  assert (Hl : forall j, (j < 11)%nat -> (j < length l)%nat /\ exists p, nth j l [] = p /\ transform o (Map2 (map2d Fin (nth j maps []))) = Map2 p).
  { intros j Hj. unfold l. rewrite !map_length. split; [lia|]. rewrite (nth_map_lt _ _ _ [] []) by (rewrite map_length; lia). rewrite (nth_map_lt _ _ _ [] []) by lia. eexists. split; reflexivity. }
  assert (HP : forall j, (j < 11)%nat -> rect n n (nth j l []) /\ forall r c, (r < n)%nat -> (c < n)%nat ->
     elem NaN (nth j l []) r c = let '(r', c') := turned_from (ac_nrot o) n n r c in Fin (radians_per_um o * elem 0 (nth j maps []) r' c')).
  { intros j Hj. destruct (Hl j Hj) as (_ & p & -> & Et). destruct (Hm j Hj) as [Rj _].
    destruct (transform_pixel o n n (map2d Fin (nth j maps [])) (rect_map2d _ _ _ _ Rj) ltac:(unfold n; lia) ltac:(unfold n; lia)) as (p' & Et' & _ & Hpix). rewrite Et' in Et. injection Et as ->.
    unfold turned_shape in Hpix. assert (Hpix' : rect n n p /\ forall i j0, (i < n)%nat -> (j0 < n)%nat -> elem NaN p i j0 = nmul (Fin (radians_per_um o)) (let '(i', j') := turned_from (ac_nrot o) n n i j0 in elem NaN (map2d Fin (nth j maps [])) i' j')) by (destruct (Z.even (ac_nrot o)); exact Hpix).
    destruct Hpix' as [Rp Hx]. split; [exact Rp|]. intros r c Hrr Hcc. rewrite (Hx r c Hrr Hcc).
    assert (G : let '(v, w) := turned_from (ac_nrot o) n n r c in (v < n)%nat /\ (w < n)%nat) by (unfold turned_from; destruct (mod4_cases (ac_nrot o)) as [E|[E|[E|E]]]; rewrite E; split; lia).
    destruct (turned_from (ac_nrot o) n n r c) as [v w]. rewrite (elem_map2d' Fin 0 NaN n n _ v w Rj (proj1 G) (proj2 G)). reflexivity. }
  destruct (plot_spec fmt o true l size title Hp Hn) as (vmin & vmax & panels & _ & _ & E & LP & H).
  { intros j Hj. split; [apply (Hl j Hj)|apply (HP j Hj)]. }
  exists maps, {| fg_size := size; fg_title := match title with Some t => t | None => "" end; fg_panels := panels |}. split; [|split; [exact Lm|split; [exact LP|]]].
  - unfold plot_lookup. rewrite run_bind, Ei. rewrite <- (run_lift (Ok _) s), <- E. reflexivity.
  - intros a Ha. split; [exact (Hm a Ha)|]. destruct (H a Ha) as (pn & ct & En & Pp & Et & _). exists pn, (elem NaN (nth a l [])). split; [exact En|]. split; [exact Pp|]. split; [|exact Et]. apply HP. exact Ha.
Qed.

Lemma plot_maps fmt o (rad : bool) data size title : let radius := if rad then ac_pr o else ac_sr o in
  let x := linspace (- radius) radius (ac_resolution o) in
  0 < radius -> (2 <= ac_resolution o)%nat -> length data = 11%nat -> Forall (rect (ac_resolution o) (ac_resolution o)) data ->
  exists vmin vmax panels, act_plot fmt o rad data size title = Ok {| fg_size := size; fg_title := match title with Some t => t | None => "" end; fg_panels := panels |} /\
    length panels = 11%nat /\
    (forall w, concat (concat data) = map Fin w -> exists lo hi, vmin = Fin lo /\ vmax = Fin hi /\ extent_of (fun t => In t w) lo hi) /\
    forall j, (j < 11)%nat -> exists pn, nth_error panels j = Some pn /\ portrays pn x x (elem NaN (nth j data [])) /\
      pn_title pn = "$\alpha=" ^^ fmt (nth j [7; 10; 20; 30; 32; 40; 50; 60; 70; 80; 90] 0) ^^ "$ deg" /\
      im_x0 (pn_image pn) = - radius /\ im_x1 (pn_image pn) = radius /\ im_y0 (pn_image pn) = - radius /\ im_y1 (pn_image pn) = radius /\
      im_scale (pn_image pn) = Some (vmin, vmax).
Proof.
  intros radius x Hr Hn Hl HF. destruct (plot_spec fmt o rad data size title Hr Hn) as (vmin & vmax & panels & E1 & E2 & E & LP & H).
  { intros j Hj. split; [lia|]. rewrite Forall_forall in HF. apply HF, nth_In. lia. }
  exists vmin, vmax, panels. split; [exact E|]. split; [exact LP|]. split; [intros w Ew; rewrite Ew in *; apply np_extent; assumption|].
  intros j Hj. destruct (H j Hj) as (pn & ct & A1 & A2 & A3 & _ & A4 & A5 & A6 & A7 & A8 & _). exists pn. tauto.
Qed.

(** Inversion of [act_plot]. *)
Lemma plot_inv fmt o rad data size title fig : act_plot fmt o rad data size title = Ok fig -> exists panels, fg_panels fig = panels /\ length panels = 11%nat /\
  forall j, (j < 11)%nat -> exists m pn ct, nth_error data j = Some m /\ nth_error panels j = Some pn /\ pn_contour pn = Some ct /\ ct_levels ct = map Fin (shown_levels o rad) /\
    (2 <= length m)%nat /\ (2 <= ncols m)%nat /\ ac_resolution o = ncols m /\ ac_resolution o = length m.
Proof.
  unfold act_plot. intros E. apply bind_ok in E. destruct E as (vmin & _ & E). apply bind_ok in E. destruct E as (vmax & _ & E). apply bind_ok in E. destruct E as (panels & Ep & E). apply Ok_inj in E. subst fig.
  exists panels. split; [reflexivity|]. pose proof (mapM_length _ _ _ Ep) as LP. cbn in LP. split; [exact LP|]. intros j Hj.
  assert (Hp : exists pn, nth_error panels j = Some pn) by (destruct (nth_error panels j) eqn:E0; [eauto|apply nth_error_None in E0; lia]). destruct Hp as [pn Hp].
  destruct (PPlot3.mapM_nth _ _ _ _ _ Ep Hp) as ([j' al] & Hc & X).
  assert (j' = j). { pose proof (nth_error_nth _ _ (0%nat, 0) Hc) as Y. rewrite combine_nth in Y by reflexivity. rewrite seq_nth in Y by exact Hj. injection Y as Y _. cbn in Y. congruence. } subst j'.
  apply bind_ok in X. destruct X as (m & Hm & X). apply bind_ok in X. destruct X as (ct & Hct & X). apply Ok_inj in X. unfold py_get in Hm. destruct (nth_error data j) as [m'|] eqn:Ed; [|discriminate]. apply Ok_inj in Hm. subst m'.
  exists m, pn, ct. split; [reflexivity|]. split; [exact Hp|]. subst pn. split; [reflexivity|]. unfold contour in Hct.
  destruct (Nat.leb 2 (length m) && Nat.leb 2 (ncols m) && Nat.eqb (length (linspace (- plot_radius o rad) (plot_radius o rad) (ac_resolution o))) (ncols m) && Nat.eqb (length (linspace (- plot_radius o rad) (plot_radius o rad) (ac_resolution o))) (length m))%bool eqn:B; [|discriminate].
  apply Ok_inj in Hct. subst ct. split; [reflexivity|]. repeat (apply andb_prop in B; destruct B as [B ?]). rewrite linspace_length in *. repeat split; try (apply Nat.leb_le; assumption); apply Nat.eqb_eq; assumption.
Qed.

Lemma plot_contours fmt o (rad : bool) data size title fig : usable_act o -> act_plot fmt o rad data size title = Ok fig ->
  Forall (fun pn => exists ct lv, pn_contour pn = Some ct /\ ct_levels ct = map Fin lv /\ Sorted Rle lv /\ length lv = 9%nat /\
    forall l, In l lv <-> exists i, (i < 9)%nat /\ (if rad then l = -2 + INR i / 2 else l * radians_per_um o = (-2 + INR i / 2) * (ac_n_reflections o / 2))) (fg_panels fig).
Proof.
  intros U E. destruct (plot_inv _ _ _ _ _ _ _ E) as (panels & -> & LP & H). apply Forall_forall. intros pn Hin. apply In_nth_error in Hin. destruct Hin as [j Hj].
  assert (Lj : (j < 11)%nat) by (rewrite <- LP; apply nth_error_Some; congruence). destruct (H j Lj) as (m & pn' & ct & _ & Hp & Hc & Hl & _). rewrite Hj in Hp. injection Hp as <-.
  exists ct, (shown_levels o rad). split; [exact Hc|]. split; [exact Hl|]. unfold shown_levels. destruct rad; [|exact (PAct8.levels_phase o U)].
  assert (EL : linspace (-2) 2 9 = map (fun i => -2 + INR i / 2) (seq 0 9)).
  { apply (nth_ext _ _ 0 0); [reflexivity|]. intros k Hk. rewrite linspace_length in Hk. rewrite linspace_nth by exact Hk. rewrite (nth_map_lt _ _ _ 0%nat 0) by exact Hk. rewrite seq_nth by exact Hk. cbn [plus minus INR]. field. }
  split; [|split; [reflexivity|]].
  - rewrite EL. cbn [seq map]. repeat constructor; cbn [INR]; lra.
  - intros l. rewrite EL, in_map_iff. split.
    + intros (i & <- & Hi). apply in_seq in Hi. exists i. split; [lia|reflexivity].
    + intros (i & Hi & ->). exists i. split; [reflexivity|]. apply in_seq. lia.
Qed.

Lemma plot_too_few fmt o rad data size title : (length data < 11)%nat -> Forall (rect (ac_resolution o) (ac_resolution o)) data -> (2 <= ac_resolution o)%nat ->
  act_plot fmt o rad data size title = Err (if (length data =? 0)%nat then ValueError else IndexError).
Proof.
  intros Hl HF Hn. destruct data as [|m t]; [reflexivity|]. apply plot_few; [exact Hn|cbn in *; lia|exact HF].
Qed.

Lemma plot_complete fmt o rad data size title fig rows cols : Forall (rect rows cols) data -> act_plot fmt o rad data size title = Ok fig ->
  (2 <= ac_resolution o)%nat /\ rows = ac_resolution o /\ cols = ac_resolution o /\ (11 <= length data)%nat /\ length (fg_panels fig) = 11%nat.
Proof.
  intros HF E. destruct (plot_inv _ _ _ _ _ _ _ E) as (panels & -> & LP & H).
  destruct (H 10%nat ltac:(lia)) as (m & pn & ct & Hm & _ & _ & _ & L1 & L2 & E1 & E2). assert ((10 < length data)%nat) by (apply nth_error_Some; congruence).
  rewrite Forall_forall in HF. destruct (HF m (nth_error_In _ _ Hm)) as [Lr Fr]. destruct m as [|row m]; [cbn in L1; lia|]. inversion Fr; subst. cbn [ncols] in *. repeat split; try lia; congruence.
Qed.
