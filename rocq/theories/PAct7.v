(** Fitting what has been generated gives back the coefficients. *)
From Coq Require Import List Psatz.
From Verif Require Import PyBase PyLib Num MZernike MMath MAperture MFs MAct SZernike SAct SAct2 PZernike PWave PPhase PPhase2 PZern2 PGrid PAct PAct3 PAct4 PAct5 PAct6.
Import ListNotations.
Open Scope R_scope.


Lemma first_three K pr m : (3 <= length K)%nat -> phase K pr false false m = phase ([0; 0; 0] ++ skipn 3 K) pr false false m.
Proof. intros H. rewrite !phase_unfold. destruct K as [|a [|b [|c K]]]; cbn in H; try lia. reflexivity. Qed.
Lemma map2d_Fin_inj m : forall m', map2d Fin m = map2d Fin m' -> m = m'.
Proof.
  assert (I : forall r r', map Fin r = map Fin r' -> r = r').
  { induction r as [|x r IH]; intros [|y r'] E; cbn in E; try discriminate; [reflexivity|]. injection E as -> E. f_equal. auto. }
  unfold map2d. induction m as [|r m IH]; intros [|r' m'] E; cbn in E; try discriminate; [reflexivity|]. injection E as E1 E2. f_equal; auto.
Qed.

(** The rows found for generated maps. *)
Lemma fit_rows solve o g alphas maps rows d : exact_solver solve -> (1 <= ac_order o)%nat ->
  generate_phase_pr o g alphas false = Ok (map (map2d Fin) maps) -> act_fit_zpoly solve o maps alphas true = Ok rows ->
  length rows = length alphas /\ forall a, (a < length alphas)%nat -> exists K x y, length K = ac_N_K o /\
    (forall k, (k < ac_N_K o)%nat -> grav_deformation (nth k g []) (nth a alphas d) = Ok (nth k K 0)) /\
    phase K (ac_pr o) false false (ac_resolution o) = Ok (x, y, nth a maps []) /\
    length (nth a rows []) = ac_N_K o /\ firstn 3 (nth a rows []) = [0; 0; 0] /\
    phase (nth a rows []) (ac_pr o) false false (ac_resolution o) = Ok (x, y, nth a maps []).
Proof.
  intros Hs Ho Hg Hf. destruct (gen_plain o g alphas _ d Hg) as [Lm Hm]. rewrite map_length in Lm.
  destruct (fit_shape _ _ _ _ _ _ Hf) as (Lr & F1 & F2). specialize (F2 eq_refl). split; [exact Lr|]. intros a Ha.
  destruct (Hm a Ha) as (phi & (K & x & y & LK & HK & EK) & Em).
  assert (Ephi : phi = nth a maps []).
  { apply map2d_Fin_inj. rewrite <- Em. rewrite (nth_map_lt (map2d Fin) maps a [] []) by lia. reflexivity. }
  subst phi. exists K, x, y. split; [exact LK|]. split; [exact HK|]. split; [exact EK|].
  rewrite Forall_forall in F1, F2. assert (Hin : In (nth a rows []) rows) by (apply nth_In; lia). split; [apply F1; exact Hin|]. split; [apply F2; exact Hin|].
  unfold act_fit_zpoly in Hf. pose proof (N_K_twice o) as HN. assert (N3 : (3 <= ac_N_K o)%nat) by nia.
  rewrite (proj2 (Nat.ltb_ge _ _)) in Hf by lia. cbn [andb] in Hf. cbv zeta in Hf.
  destruct (mapM _ _) as [rs|e] eqn:E; [|discriminate]. cbn [bind] in Hf. rewrite (proj2 (Nat.eqb_neq _ _)) in Hf by lia. apply Ok_inj in Hf. subst rows.
  rewrite map_length in Lr. pose proof (mapM_nth _ _ _ 0%nat [] a E) as Ea. rewrite seq_length in Ea. specialize (Ea Ha). rewrite seq_nth in Ea by exact Ha. cbn [Nat.add] in Ea.
  rewrite (py_get_ok maps a []) in Ea by lia. cbn [bind] in Ea.
  destruct (solve _ _) as [z|] eqn:Es; [|discriminate]. cbn [bind] in Ea. destruct (Nat.eqb_spec (length z) (ac_N_K o - 3)) as [Lz|]; [|discriminate]. apply Ok_inj in Ea.
  destruct (Hs _ _ _ Es) as [_ Hz].
  { exists (skipn 3 K). split; [rewrite skipn_length, repeat_length, LK; reflexivity|]. apply residual_zero. exists x, y, (nth a maps []). split; [|reflexivity].
    cbn [negb]. rewrite <- first_three by lia. exact EK. }
  apply residual_zero in Hz. destruct Hz as (x' & y' & phi & Ep & Ec). cbn [negb] in Ep.
  rewrite (nth_map_lt _ rs a [] []) by lia. rewrite <- Ea. rewrite Ep.
  assert (phi = nth a maps []) as ->. { apply (concat_rect_inj (ac_resolution o) (ac_resolution o)); [eapply phase_rect; exact Ep|eapply phase_rect; exact EK|congruence]. }
  destruct (phase_inv _ _ _ _ _ _ _ _ Ep) as (? & ? & _ & _ & -> & -> & _). destruct (phase_inv _ _ _ _ _ _ _ _ EK) as (? & ? & _ & _ & -> & -> & _). reflexivity.
Qed.

(** On a fine enough grid the rows are the coefficients themselves. *)
Lemma fit_coefficients solve o g alphas maps rows d : exact_solver solve -> (1 <= ac_order o)%nat -> 0 < ac_pr o ->
  (3 * (ac_order o + 1) <= 2 * (ac_resolution o - 1))%nat ->
  generate_phase_pr o g alphas false = Ok (map (map2d Fin) maps) -> act_fit_zpoly solve o maps alphas true = Ok rows ->
  rect (length alphas) (ac_N_K o) rows /\ forall a k, (a < length alphas)%nat -> (k < ac_N_K o)%nat ->
    if Nat.ltb k 3 then elem 0 rows a k = 0 else grav_deformation (nth k g []) (nth a alphas d) = Ok (elem 0 rows a k).
Proof.
  intros Hs Ho Hpr Hres Hg Hf. destruct (fit_rows _ _ _ _ _ _ d Hs Ho Hg Hf) as [Lr H]. destruct (fit_shape _ _ _ _ _ _ Hf) as (_ & F1 & _).
  split; [split; assumption|]. intros a k Ha Hk. destruct (H a Ha) as (K & x & y & LK & HK & EK & Lrow & F & Er). unfold elem.
  destruct (Nat.ltb_spec k 3) as [B|B].
  - destruct (nth a rows []) as [|r0 [|r1 [|r2 t]]]; cbn [firstn] in F; try discriminate. injection F as -> -> ->.
    destruct k as [|[|[|k]]]; [reflexivity..|lia].
  - rewrite (HK k Hk). f_equal. apply (phase_determines K (nth a rows []) (ac_order o) (ac_pr o) false false (ac_resolution o)).
    + rewrite LK. apply N_K_twice.
    + exact Ho.
    + congruence.
    + exact Hpr.
    + exact Hres.
    + rewrite EK, Er. reflexivity.
    + lia.
    + lia.
    + lia.
Qed.


Lemma grav_total h alphas : length h = 3%nat -> exists model, mapM (grav_deformation h) alphas = Ok model.
Proof. intros H. apply mapM_total. intros al _. destruct h as [|h0 [|h1 [|h2 t]]]; cbn in H; try lia. rewrite grav_ok. eexists. reflexivity. Qed.
Lemma residual_grav_zero Knl alphas h : all_zero (residual_grav Knl alphas h) <-> mapM (grav_deformation h) alphas = Ok Knl.
Proof.
  unfold residual_grav. split.
  - intros (l & E & F). destruct (mapM _ _) as [m|e]; [|discriminate]. cbn [bind] in E. unfold vsub in E. destruct (Nat.eqb_spec (length Knl) (length m)) as [L|]; [|discriminate].
    apply Ok_inj in E. subst l. f_equal. symmetry. apply map2_minus_zero; assumption.
  - intros E. rewrite E. cbn [bind]. unfold vsub. rewrite Nat.eqb_refl. eexists. split; [reflexivity|]. apply map2_minus_self.
Qed.
Lemma mapM_exact {A B} (f : A -> res B) (l : list A) (r : list B) d e : length r = length l -> (forall i, (i < length l)%nat -> f (nth i l d) = Ok (nth i r e)) -> mapM f l = Ok r.
Proof.
  revert r. induction l as [|a l IH]; intros [|b r] L H; cbn in L; try discriminate; [reflexivity|]. cbn [mapM].
  pose proof (H 0%nat ltac:(cbn; lia)) as H0. cbn [nth] in H0. rewrite H0. cbn [bind]. rewrite (IH r); [reflexivity|lia|]. intros i Hi. apply (H (S i)). cbn; lia.
Qed.
Lemma grav_fit solve o K_alpha alphas gs (h : list (list R)) d : exact_solver solve -> three_elevations alphas ->
  rect (length alphas) (ac_N_K o) K_alpha -> (forall k, (k < ac_N_K o)%nat -> length (nth k h []) = 3%nat) ->
  (forall a k, (a < length alphas)%nat -> (k < ac_N_K o)%nat -> grav_deformation (nth k h []) (nth a alphas d) = Ok (elem 0 K_alpha a k)) ->
  act_fit_grav solve o K_alpha alphas = Ok gs -> gs = map (fun k => nth k h []) (seq 0 (ac_N_K o)).
Proof.
  intros Hs (a & b & c & Ia & Ib & Ic & Hd) [LK FK] H3 HK E. unfold act_fit_grav in E. pose proof (mapM_length _ _ _ E) as L. rewrite seq_length in L.
  apply nth_ext with (d := []) (d' := []); [rewrite map_length, seq_length; exact L|]. intros k Hk. rewrite L in Hk.
  rewrite (nth_map_lt _ (seq 0 (ac_N_K o)) k 0%nat []) by (rewrite seq_length; exact Hk). rewrite seq_nth by exact Hk. cbn [Nat.add].
  pose proof (mapM_nth _ _ _ 0%nat [] k E) as Ek. rewrite seq_length in Ek. specialize (Ek Hk). rewrite seq_nth in Ek by exact Hk. cbn [Nat.add] in Ek.
  destruct (mapM (fun row => py_get row k) K_alpha) as [col|] eqn:Ec; [|discriminate]. cbn [bind] in Ek.
  destruct (solve _ _) as [z|] eqn:Es; [|discriminate]. cbn [bind] in Ek. destruct (Nat.eqb_spec (length z) 3) as [Lz|]; [|discriminate]. apply Ok_inj in Ek.
  assert (Hcol : length col = length alphas /\ forall i, (i < length alphas)%nat -> nth i col 0 = elem 0 K_alpha i k).
  { split; [rewrite <- LK; apply (mapM_length _ _ _ Ec)|]. intros i Hi. pose proof (mapM_nth _ _ _ [] 0 i Ec ltac:(lia)) as X. cbv beta in X.
    apply (py_get_nth _ _ 0) in X. exact (proj2 X). }
  destruct Hcol as [Lc Hcol].
  assert (T : mapM (grav_deformation (nth k h [])) alphas = Ok col).
  { apply (mapM_exact _ _ _ d 0); [exact Lc|]. intros i Hi. rewrite Hcol by exact Hi. apply HK; assumption. }
  destruct (Hs _ _ _ Es) as [_ Hz].
  { exists (nth k h []). split; [apply H3; exact Hk|]. apply residual_grav_zero. exact T. }
  apply residual_grav_zero in Hz. rewrite <- Ek.
  assert (V : forall al, In al alphas -> grav_deformation z al = grav_deformation (nth k h []) al).
  { intros al Hal. apply (In_nth _ _ d) in Hal. destruct Hal as (i & Hi & <-).
    rewrite (mapM_nth _ _ _ d 0 i Hz Hi). symmetry. apply (mapM_nth _ _ _ d 0 i T Hi). }
  apply (grav_unique z (nth k h []) a b c); auto.
Qed.

Lemma fit_all_generated solve o g alphas maps gs K d : exact_solver solve -> (1 <= ac_order o)%nat -> 0 < ac_pr o ->
  (3 * (ac_order o + 1) <= 2 * (ac_resolution o - 1))%nat -> three_elevations alphas ->
  (forall k, (k < ac_N_K o)%nat -> length (nth k g []) = 3%nat) ->
  generate_phase_pr o g alphas false = Ok (map (map2d Fin) maps) -> act_fit_all solve o maps alphas = Ok (gs, K) ->
  (length gs = ac_N_K o /\ forall k, (k < ac_N_K o)%nat -> nth k gs [] = if Nat.ltb k 3 then [0; 0; 0] else nth k g []) /\
  rect (length alphas) (ac_N_K o) K /\ forall a k, (a < length alphas)%nat -> (k < ac_N_K o)%nat ->
    if Nat.ltb k 3 then elem 0 K a k = 0 else grav_deformation (nth k g []) (nth a alphas d) = Ok (elem 0 K a k).
Proof.
  intros Hs Ho Hpr Hres H3 Hl Hg Hf. unfold act_fit_all in Hf.
  destruct (act_fit_zpoly _ _ _ _ _) as [rows|] eqn:Ez; [|discriminate]. cbn [bind] in Hf.
  destruct (act_fit_grav _ _ _ _) as [gs'|] eqn:Eg; [|discriminate]. cbn [bind] in Hf. apply Ok_inj in Hf. injection Hf as -> ->.
  destruct (fit_coefficients _ _ _ _ _ _ d Hs Ho Hpr Hres Hg Ez) as [HR HE]. split; [|split; assumption].
  set (h := map (fun k => if Nat.ltb k 3 then [0; 0; 0] else nth k g []) (seq 0 (ac_N_K o))).
  assert (Hh : forall k, (k < ac_N_K o)%nat -> nth k h [] = if Nat.ltb k 3 then [0; 0; 0] else nth k g []).
  { intros k Hk. unfold h. rewrite (nth_map_lt _ (seq 0 (ac_N_K o)) k 0%nat []) by (rewrite seq_length; exact Hk). rewrite seq_nth by exact Hk. reflexivity. }
  rewrite (grav_fit solve o K alphas gs h d Hs H3 HR) with (3 := Eg).
  - split; [rewrite map_length, seq_length; reflexivity|]. intros k Hk. rewrite (nth_map_lt _ (seq 0 (ac_N_K o)) k 0%nat []) by (rewrite seq_length; exact Hk).
    rewrite seq_nth by exact Hk. apply Hh. exact Hk.
  - intros k Hk. rewrite Hh by exact Hk. destruct (Nat.ltb k 3); [reflexivity|apply Hl; exact Hk].
  - intros a k Ha Hk. rewrite Hh by exact Hk. specialize (HE a k Ha Hk). destruct (Nat.ltb k 3); [|exact HE].
    rewrite HE, grav_ok. f_equal. ring.
Qed.

(** ** A concrete case: a search through finitely many candidates *)
Definition zero_test (r : res (list R)) : bool :=
  match r with Ok l => forallb (fun x => if Req_EM_T x 0 then true else false) l | Err _ => false end.
Lemma zero_test_spec r : zero_test r = true <-> all_zero r.
Proof.
  unfold zero_test, all_zero. destruct r as [l|e].
  - rewrite forallb_forall. split.
    + intros H. exists l. split; [reflexivity|]. apply Forall_forall. intros x Hx. specialize (H x Hx). destruct (Req_EM_T x 0); [assumption|discriminate].
    + intros (l' & E & F) x Hx. apply Ok_inj in E. subst l'. rewrite Forall_forall in F. destruct (Req_EM_T x 0); [reflexivity|]. exfalso. auto.
  - split; [discriminate|]. intros (l & E & _). discriminate.
Qed.
Definition search (cands : list (list R)) : lsq := fun f x0 =>
  match find (fun c => Nat.eqb (length c) (length x0) && zero_test (f c)) cands with Some c => Ok c | None => Err ValueError end.
Lemma search_exact cands : exact_solver (search cands).
Proof.
  intros f x0 x E _. unfold search in E. destruct (find _ _) as [c|] eqn:F; [|discriminate]. apply Ok_inj in E. subst c. apply find_some in F.
  destruct F as [_ F]. apply andb_prop in F. destruct F as [F1 F2]. apply Nat.eqb_eq in F1. apply zero_test_spec in F2. auto.
Qed.
Lemma search_finds cands f x0 c : In c cands -> length c = length x0 -> all_zero (f c) -> exists x, search cands f x0 = Ok x /\ length x = length x0.
Proof.
  intros Hin L Z. unfold search. destruct (find _ _) as [x|] eqn:F.
  - exists x. split; [reflexivity|]. apply find_some in F. destruct F as [_ F]. apply andb_prop in F. destruct F as [F1 _]. apply Nat.eqb_eq. exact F1.
  - exfalso. pose proof (find_none _ _ F c Hin) as N. cbv beta in N. rewrite L, Nat.eqb_refl in N. cbn [andb] in N. apply zero_test_spec in Z. congruence.
Qed.
Definition demo_elevations : list angle := [Deg 10; Deg 50; Deg 80].
Lemma demo_three : three_elevations demo_elevations.
Proof.
  exists (Deg 10), (Deg 50), (Deg 80). split; [cbn; auto|]. split; [cbn; auto|]. split; [cbn; auto|].
  pose proof PI_RGT_0. intros x y H'. cbn [In] in H'. destruct H' as [E|[E|[E|[]]]]; injection E as <- <-; cbn [angle_value]; unfold deg2rad;
   (split; [lra|apply Rabs_def1; lra]).
Qed.
Lemma demo_coeffs m alpha K : gen_coeffs (demo_act 2 m) defocus_g alpha = Ok K -> K = [0; 0; 0; 0; 1; 0].
Proof. exact (defocus_coeffs alpha K). Qed.
Lemma all_Fin out n : length out = n -> (forall a, (a < n)%nat -> exists phi, nth a out [] = map2d Fin phi) -> exists maps, out = map (map2d Fin) maps.
Proof.
  revert n. induction out as [|m out IH]; intros n L H; [exists []; reflexivity|]. destruct n as [|n]; [discriminate|].
  destruct (H 0%nat ltac:(lia)) as [phi E]. cbn in E. destruct (IH n ltac:(cbn in L; lia)) as [maps ->]; [intros a Ha; apply (H (S a)); lia|]. exists (phi :: maps). cbn. congruence.
Qed.
Lemma demo_fit_all : exists maps gs K, generate_phase_pr (demo_act 2 6) defocus_g demo_elevations false = Ok (map (map2d Fin) maps) /\
  act_fit_all (search [[0; 1; 0]; [0; 0; 0]; [0; 0; 1]]) (demo_act 2 6) maps demo_elevations = Ok (gs, K).
Proof.
  assert (L3 : forall k, (k < 6)%nat -> length (nth k defocus_g []) = 3%nat). { intros k Hk. do 6 (destruct k as [|k]; [reflexivity|]). lia. }
  destruct (gen_ok (demo_act 2 6) defocus_g demo_elevations false) as [out Hout]; [cbn; lia|cbn; lra|cbn; lia| |].
  { change (ac_N_K (demo_act 2 6)) with 6%nat. intros k Hk. rewrite L3 by exact Hk. lia. }
  destruct (gen_plain _ _ _ _ (Rad 0) Hout) as [Lo Ho]. destruct (all_Fin out 3 Lo) as [maps ->].
  { intros a Ha. destruct (Ho a Ha) as (phi & _ & E). exists phi. exact E. }
  rewrite map_length in Lo. exists maps.
  set (sv := search _). assert (Sx : exact_solver sv) by apply search_exact.
  assert (Z : exists rows, act_fit_zpoly sv (demo_act 2 6) maps demo_elevations true = Ok rows).
  { unfold act_fit_zpoly. change (ac_N_K (demo_act 2 6)) with 6%nat. cbn [andb Nat.ltb Nat.leb Nat.sub Nat.eqb].
    destruct (mapM_total (fun a => bind (py_get maps a) (fun m => bind (sv (residual_phase (demo_act 2 6) true (concat m)) (repeat (1 / 10) 3)) (fun x => if Nat.eqb (length x) 3 then Ok x else Err ValueError))) (seq 0 (length demo_elevations))) as [rs E].
    - intros a Ha. apply in_seq in Ha. change (length demo_elevations) with 3%nat in *. rewrite (py_get_ok maps a []) by lia. cbn [bind].
      destruct (Ho a ltac:(lia)) as (phi & (K & x & y & LK & HK & EK) & Em). rewrite (nth_map_lt (map2d Fin) maps a [] []) in Em by lia. apply map2d_Fin_inj in Em.
      assert (K = [0; 0; 0; 0; 1; 0]) as ->.
      { destruct (gen_coeffs_ok (demo_act 2 6) defocus_g (nth a demo_elevations (Rad 0))) as [K' EK'].
        - cbn; lia.
        - change (ac_N_K (demo_act 2 6)) with 6%nat. intros k Hk. rewrite L3 by exact Hk. lia.
        - rewrite <- (demo_coeffs _ _ _ EK'). apply gen_coeffs_spec in EK'. destruct EK' as [L' H']. apply nth_ext with (d := 0) (d' := 0); [congruence|].
          intros n Hn. rewrite LK in Hn. pose proof (HK n Hn) as A. pose proof (H' n Hn) as B. rewrite A in B. apply Ok_inj in B. exact B. }
      destruct (search_finds [[0; 1; 0]; [0; 0; 0]; [0; 0; 1]] (residual_phase (demo_act 2 6) true (concat (nth a maps []))) (repeat (1 / 10) 3) [0; 1; 0]) as (z & Ez & Lz).
      + left; reflexivity.
      + reflexivity.
      + apply residual_zero. exists x, y, phi. split; [exact EK|congruence].
      + fold sv in Ez. rewrite Ez. cbn [bind]. rewrite Lz. cbn. eexists. reflexivity.
    - change (length demo_elevations) with 3%nat in *. rewrite E. eexists. reflexivity. }
  destruct Z as [rows Ez]. destruct (fit_coefficients sv (demo_act 2 6) defocus_g demo_elevations maps rows (Rad 0) Sx ltac:(cbn; lia) ltac:(cbn; lra) ltac:(cbn; lia) Hout Ez) as [[LR FR] HE].
  change (ac_N_K (demo_act 2 6)) with 6%nat in *. change (length demo_elevations) with 3%nat in *.
  unfold act_fit_all. rewrite Ez. cbn [bind]. unfold act_fit_grav. change (ac_N_K (demo_act 2 6)) with 6%nat.
  destruct (mapM_total (fun N => bind (mapM (fun row => py_get row N) rows) (fun col => bind (sv (residual_grav col demo_elevations) [1 / 10; 1 / 10; 1 / 10]) (fun x => if Nat.eqb (length x) 3 then Ok x else Err ValueError))) (seq 0 6)) as [gs E].
  - intros k Hk. apply in_seq in Hk.
    destruct (mapM_total (fun row => py_get row k) rows) as [col Ec].
    { intros row Hr. rewrite Forall_forall in FR. exists (nth k row 0). apply py_get_ok. rewrite (FR row Hr). lia. }
    rewrite Ec. cbn [bind].
    assert (T : exists c, In c [[0; 1; 0]; [0; 0; 0]; [0; 0; 1]] /\ length c = 3%nat /\ mapM (grav_deformation c) demo_elevations = Ok col).
    { assert (C : forall i, (i < 3)%nat -> nth i col 0 = elem 0 rows i k).
      { intros i Hi. pose proof (mapM_nth _ _ _ [] 0 i Ec ltac:(lia)) as X. cbv beta in X. apply (py_get_nth _ _ 0) in X. exact (proj2 X). }
      assert (Lc : length col = 3%nat) by (rewrite <- LR; apply (mapM_length _ _ _ Ec)).
      exists (if Nat.eqb k 4 then [0; 0; 1] else [0; 0; 0]). split; [destruct (Nat.eqb k 4); cbn; auto|]. split; [destruct (Nat.eqb k 4); reflexivity|].
      apply (mapM_exact _ _ _ (Rad 0) 0); [exact Lc|]. intros i Hi. change (length demo_elevations) with 3%nat in Hi. rewrite C by exact Hi. specialize (HE i k Hi ltac:(lia)).
      destruct (Nat.ltb_spec k 3) as [B|B].
      - rewrite HE. rewrite (proj2 (Nat.eqb_neq k 4)) by lia. rewrite grav_ok. f_equal. ring.
      - destruct (Nat.eqb_spec k 4) as [->|]; [exact HE|]. replace (nth k defocus_g []) with [0; 0; 0] in HE; [exact HE|].
        assert (k = 3 \/ k = 5)%nat as [-> | ->] by lia; reflexivity. }
    destruct T as (c & Hc & Lc & Tc).
    destruct (search_finds _ (residual_grav col demo_elevations) [1 / 10; 1 / 10; 1 / 10] c Hc Lc (proj2 (residual_grav_zero _ _ _) Tc)) as (z & E & Lz).
    fold sv in E. rewrite E. cbn [bind]. rewrite Lz. cbn. eexists. reflexivity.
  - rewrite E. exists gs, rows. split; [exact Hout|reflexivity].
Qed.
