(** The refutation of the single correction, and the two least-squares fits. *)
From Coq Require Import List Psatz.
From Verif Require Import PyBase PyLib Num MZernike MMath MAperture MFs MAct SZernike SAct SAct2 PZernike PRodrigues PBound PEnum PWave PPhase PPhase2 PZern2 PAct PAct3 PAct4 PAct5.
Import ListNotations.
Open Scope R_scope.

Lemma circle_rim n t : Nat.even n = true -> circle n 0 1 t = 1.
Proof.
  intros H. unfold circle, radial. change (Z.to_nat (Z.abs 0)) with 0%nat. destruct (Req_EM_T 1 0); [lra|].
  destruct (zernike_R_rodrigues n 0 ltac:(lia)) as (g & E & Hg); [rewrite Nat.sub_0_r; assumption|].
  destruct (R_rim_centre n 0 ltac:(lia)) as (g' & E' & H1 & _); [rewrite Nat.sub_0_r; assumption|].
  rewrite E in E'. apply Ok_inj in E'. subst g'. rewrite <- Hg by lra. rewrite H1. cbn [Z.ltb Z.compare]. change (Z.abs 0) with 0%Z. rewrite Rmult_0_l, cos_0. ring.
Qed.

Definition demo_act (order resolution : nat) : actuator :=
  {| ac_frequency := 34750000000; ac_nrot := 1; ac_sign := -1; ac_sr := 325 / 100; ac_pr := 50; ac_order := order;
     ac_resolution := resolution; ac_min := -5000; ac_max := 5000; ac_n_reflections := 2 |}.
Lemma demo_usable order resolution : usable_act (demo_act order resolution).
Proof. unfold usable_act. cbn. repeat split; try lra. Qed.
Lemma demo_sr order resolution : 0 <= ac_sr (demo_act order resolution) /\ ac_sr (demo_act order resolution) * sqrt 2 <= 73872 / 10000.
Proof.
  cbn. split; [lra|]. assert (sqrt 2 <= 2).
  { apply Rsqr_incr_0; [rewrite Rsqr_sqrt by lra; unfold Rsqr; lra|apply sqrt_pos|lra]. }
  lra.
Qed.
Definition defocus_g : list (list R) := [[0; 0; 0]; [0; 0; 0]; [0; 0; 0]; [0; 0; 0]; [0; 0; 1]; [0; 0; 0]].
Lemma defocus_coeffs alpha K : gen_coeffs (demo_act 2 3) defocus_g alpha = Ok K -> K = [0; 0; 0; 0; 1; 0].
Proof.
  intros H. apply gen_coeffs_spec in H.
  change (ac_N_K (demo_act 2 3)) with 6%nat in H. destruct H as [L H].
  destruct K as [|k0 [|k1 [|k2 [|k3 [|k4 [|k5 [|]]]]]]]; try discriminate.
  pose proof (H 0%nat ltac:(lia)) as H0. pose proof (H 1%nat ltac:(lia)) as H1. pose proof (H 2%nat ltac:(lia)) as H2.
  pose proof (H 3%nat ltac:(lia)) as H3. pose proof (H 4%nat ltac:(lia)) as H4. pose proof (H 5%nat ltac:(lia)) as H5.
  cbn [nth defocus_g] in *. rewrite grav_ok in *. apply Ok_inj in H0, H1, H2, H3, H4, H5.
  repeat f_equal; lra.
Qed.
Lemma defocus_pixel alpha phi : elevation_map (demo_act 2 3) defocus_g alpha phi -> elem 0 phi 1 2 = 2 * PI.
Proof.
  intros (K & x & y & L & H & E). assert (EK : K = [0; 0; 0; 0; 1; 0]).
  { apply (defocus_coeffs alpha). destruct (gen_coeffs_ok (demo_act 2 3) defocus_g alpha) as [K' EK'].
    - cbn; lia.
    - change (ac_N_K (demo_act 2 3)) with 6%nat. intros k Hk. do 6 (destruct k as [|k]; [cbn; lia|]). lia.
    - rewrite EK'. f_equal. apply gen_coeffs_spec in EK'. destruct EK' as [L' H']. apply nth_ext with (d := 0) (d' := 0); [congruence|].
      intros n Hn. rewrite L' in Hn. pose proof (H n Hn) as A. pose proof (H' n Hn) as B. rewrite A in B. apply Ok_inj in B. congruence. }
  subst K. destruct (phase_ok [0; 0; 0; 0; 1; 0] 50 false false 3 2) as (phi' & E' & _ & P); [reflexivity|lia|lra|].
  cbn [demo_act ac_pr ac_resolution] in E. rewrite E' in E. injection E as _ _ <-.
  destruct (P 1%nat ltac:(lia)) as [_ Q]. destruct (Q 2%nat ltac:(lia)) as [_ Q2]. unfold elem. rewrite (Q2) with (rho := 1) (theta := 0).
  - unfold zernike_series. cbn [sum_upto Z.of_nat Pos.of_succ_nat Pos.succ Z.mul Z.sub Z.opp Z.add Pos.mul Z.pos_sub Pos.pred_double kept].
    change (Z.double 0) with 0%Z. change (Z.double 1) with 2%Z.
    change (coeff_of [0; 0; 0; 0; 1; 0] 2 (-2)) with 0. change (coeff_of [0; 0; 0; 0; 1; 0] 2 0) with 1. change (coeff_of [0; 0; 0; 0; 1; 0] 2 2) with 0.
    rewrite (circle_rim 2) by reflexivity. ring.
  - rewrite !linspace_nth by lia. cbn. nra.
  - lra.
  - rewrite !linspace_nth by lia. rewrite cos_0. cbn. field.
  - rewrite !linspace_nth by lia. rewrite sin_0. cbn. field.
Qed.
Lemma demo_radius : sub_radius (demo_act 2 3) 1 2 = 325 / 100.
Proof.
  unfold sub_radius. cbn [demo_act ac_sr ac_resolution]. rewrite !linspace_nth by lia.
  replace ((- (325 / 100) + INR 2 * ((325 / 100 - - (325 / 100)) / INR (3 - 1))) ^ 2 + (- (325 / 100) + INR 1 * ((325 / 100 - - (325 / 100)) / INR (3 - 1))) ^ 2)
    with ((325 / 100) * (325 / 100)) by (cbn; field). apply sqrt_square. lra.
Qed.
Lemma once_refuted : exists o g alphas out phi j i c,
  0 <= ac_sr o /\ ac_sr o * sqrt 2 <= 73872 / 10000 /\
  generate_phase_pr o g alphas true = Ok out /\ (0 < length alphas)%nat /\ elevation_map o g (nth 0 alphas (Rad 0)) phi /\
  (j < ac_resolution o)%nat /\ (i < ac_resolution o)%nat /\
  eac (143050 / 10000) (73872 / 10000) (sub_radius o j i) = Fin c /\ elem NaN (nth 0 out []) j i <> Fin (elem 0 phi j i * c).
Proof.
  destruct (demo_sr 2 3) as [S1 S2].
  destruct (gen_ok (demo_act 2 3) defocus_g [Deg 30; Deg 60] true) as [out Hout].
  { cbn; lia. } { cbn; lra. } { cbn; lia. }
  { change (ac_N_K (demo_act 2 3)) with 6%nat. intros k Hk. do 6 (destruct k as [|k]; [cbn; lia|]). lia. }
  destruct (gen_corrected _ _ _ _ (Rad 0) S1 S2 Hout) as [L H]. destruct (H 0%nat ltac:(cbn; lia)) as (phi & EM & _ & Hpix).
  destruct (Hpix 1%nat 2%nat ltac:(cbn; lia) ltac:(cbn; lia)) as (c & Ec & _ & Ev).
  exists (demo_act 2 3), defocus_g, [Deg 30; Deg 60], out, phi, 1%nat, 2%nat, c.
  split; [exact S1|]. split; [exact S2|]. split; [exact Hout|]. split; [cbn; lia|]. split; [exact EM|].
  split; [cbn; lia|]. split; [cbn; lia|]. split; [exact Ec|]. rewrite Ev. cbn [length Nat.sub].
  rewrite (defocus_pixel _ _ EM). rewrite demo_radius in Ec.
  destruct (eac_decreasing (143050 / 10000) (73872 / 10000) 0 (325 / 100)) as (c0 & c1 & E0 & E1 & B & _); [lra..|].
  rewrite eac_axis in E0 by lra. injection E0 as <-. rewrite Ec in E1. injection E1 as <-.
  destruct (eac_decreasing (143050 / 10000) (73872 / 10000) (325 / 100) (73872 / 10000)) as (c2 & c3 & E2 & E3 & B' & _); [lra..|].
  rewrite Ec in E2. injection E2 as <-. intros X. injection X as X. pose proof PI_RGT_0. cbn [pow] in X.
  assert (P : c * (1 - c) = 0) by nra. apply Rmult_integral in P. destruct P; lra.
Qed.

(** ** Fits *)
Lemma fit_shape solve o maps alphas fem rows : act_fit_zpoly solve o maps alphas fem = Ok rows ->
  length rows = length alphas /\ Forall (fun r => length r = ac_N_K o) rows /\ (fem = true -> Forall (fun r => firstn 3 r = [0; 0; 0]) rows).
Proof.
  unfold act_fit_zpoly. destruct fem; cbn [andb].
  - destruct (Nat.ltb_spec (ac_N_K o) 3) as [B|B]; [discriminate|]. cbv zeta.
    destruct (mapM _ _) as [rs|e] eqn:E; [|discriminate]. cbn [bind]. intros H. apply Ok_inj in H.
    rewrite (proj2 (Nat.eqb_neq _ _)) in H by lia. subst rows.
    pose proof (mapM_length _ _ _ E) as L. rewrite seq_length in L. split; [rewrite map_length; assumption|]. split.
    + rewrite Forall_map. apply mapM_Forall2 in E. remember (seq 0 (length alphas)) as js. clear Heqjs L. induction E as [|j r js rs Hj F IH]; constructor; [|assumption].
      destruct (py_get maps j) as [m|]; [|discriminate]. cbn [bind] in Hj. destruct (solve _ _) as [x|]; [|discriminate]. cbn [bind] in Hj.
      destruct (Nat.eqb_spec (length x) (ac_N_K o - 3)) as [El|]; [|discriminate]. apply Ok_inj in Hj. subst r. rewrite app_length, El. cbn [length]. lia.
    + intros _. rewrite Forall_map. rewrite Forall_forall. intros r _. reflexivity.
  - cbv zeta. destruct (mapM _ _) as [rs|e] eqn:E; [|discriminate]. cbn [bind]. rewrite Nat.eqb_refl. intros H. apply Ok_inj in H. subst rows.
    pose proof (mapM_length _ _ _ E) as L. rewrite seq_length in L. split; [assumption|]. split; [|discriminate].
    apply mapM_Forall2 in E. remember (seq 0 (length alphas)) as js. clear Heqjs L. induction E as [|j r js rs Hj F IH]; constructor; [|assumption].
    destruct (py_get maps j) as [m|]; [|discriminate]. cbn [bind] in Hj. destruct (solve _ _) as [x|]; [|discriminate]. cbn [bind] in Hj.
    destruct (Nat.eqb_spec (length x) (ac_N_K o)) as [El|]; [|discriminate]. apply Ok_inj in Hj. subst r. assumption.
Qed.
Lemma fit_succeeds solve o maps alphas fem : (1 <= ac_order o)%nat -> (length alphas <= length maps)%nat ->
  (forall f x0, exists x, solve f x0 = Ok x /\ length x = length x0) -> exists rows, act_fit_zpoly solve o maps alphas fem = Ok rows.
Proof.
  intros Ho Hm Hs. unfold act_fit_zpoly. pose proof (N_K_twice o) as HN.
  assert (fem && Nat.ltb (ac_N_K o) 3 = false) as ->. { destruct fem; [|reflexivity]. cbn [andb]. apply Nat.ltb_ge. nia. }
  cbv zeta. set (n := if fem then (ac_N_K o - 3)%nat else ac_N_K o).
  destruct (mapM_total (fun a => bind (py_get maps a) (fun m => bind (solve (residual_phase o fem (concat m)) (repeat (1 / 10) n)) (fun x => if Nat.eqb (length x) n then Ok x else Err ValueError))) (seq 0 (length alphas))) as [rs E].
  - intros a Ha. apply in_seq in Ha. rewrite (py_get_ok maps a []) by lia. cbn [bind].
    destruct (Hs (residual_phase o fem (concat (nth a maps []))) (repeat (1 / 10) n)) as (x & -> & Lx). cbn [bind]. rewrite Lx, repeat_length, Nat.eqb_refl. eexists. reflexivity.
  - rewrite E. eexists. reflexivity.
Qed.

Lemma map2_minus_zero a b : length a = length b -> Forall (fun x => x = 0) (map2 Rminus a b) -> a = b.
Proof.
  revert b. induction a as [|x a IH]; intros [|y b] L F; cbn in *; try discriminate; [reflexivity|]. inversion F; subst. f_equal; [lra|]. apply IH; [congruence|assumption].
Qed.
Lemma map2_minus_self a : Forall (fun x => x = 0) (map2 Rminus a a).
Proof. induction a; cbn; constructor; [lra|assumption]. Qed.
Lemma residual_zero o fem data K : all_zero (residual_phase o fem data K) <->
  exists x y phi, phase (if fem then [0; 0; 0] ++ K else K) (ac_pr o) false (negb fem) (ac_resolution o) = Ok (x, y, phi) /\ data = concat phi.
Proof.
  unfold residual_phase. split.
  - intros (l & E & F). destruct (phase _ _ _ _ _) as [[[x y] phi]|e]; [|discriminate]. cbn [bind] in E. exists x, y, phi. split; [reflexivity|].
    unfold vsub in E. destruct (Nat.eqb_spec (length data) (length (concat phi))) as [L|]; [|discriminate]. apply Ok_inj in E. subst l. apply map2_minus_zero; assumption.
  - intros (x & y & phi & E & ->). rewrite E. cbn [bind]. unfold vsub. rewrite Nat.eqb_refl. eexists. split; [reflexivity|]. apply map2_minus_self.
Qed.

(** An ideal optimiser: it finds a point where the residuals vanish whenever there is one. *)
Definition ideal_solver (solve : lsq) : Prop := forall f x0, (exists x, length x = length x0 /\ all_zero (f x)) ->
  exists x, solve f x0 = Ok x /\ length x = length x0 /\ all_zero (f x).

Lemma app_inj_len {A} (a b c d : list A) : length a = length c -> a ++ b = c ++ d -> a = c /\ b = d.
Proof.
  revert c. induction a as [|x a IH]; intros [|y c] L E; cbn in *; try discriminate; [auto|]. injection E as -> E.
  destruct (IH c) as [-> ->]; auto.
Qed.
Lemma concat_rect_inj {A} r c : forall (m m' : list (list A)), rect r c m -> rect r c m' -> concat m = concat m' -> m = m'.
Proof.
  induction r as [|r IH]; intros m m' [L F] [L' F'] E.
  - destruct m; [|discriminate]. destruct m'; [|discriminate]. reflexivity.
  - destruct m as [|x m]; [discriminate|]. destruct m' as [|x' m']; [discriminate|]. inversion F; inversion F'; subst. cbn in E.
    assert (Ex : x = x' /\ concat m = concat m') by (apply app_inj_len; [congruence|assumption]).
    destruct Ex as [-> Ec]. f_equal. apply IH; [split; [cbn in L; congruence|assumption]|split; [cbn in L'; congruence|assumption]|assumption].
Qed.
