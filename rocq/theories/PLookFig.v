(** The figures of scripts/create_lookup.py. *)
From Coq Require Import String Ascii List ZArith Lia Lra.
From Verif Require Import PyBase PyLib Num MZernike MMath MAperture MFs MOut MAct MTab MAux MPlot MActPlot MScript SMath SOut SFit SZernike SAct SAct2 STab SPlot SLookup SLookFig PEnum PStr PFs PFit PFit5 PPhase PPhase2 PAct PAct2 PAct3 PAct4 PAct5 PAct7 PAct8 PTab PActPlot PLookup.
Import ListNotations.
Open Scope R_scope.
Open Scope string_scope.
Open Scope list_scope.
Open Scope prog_scope.

(** ** They can be drawn *)
Lemma gen_shape o g alphas phases : generate_phase_pr o g alphas true = Ok phases -> length phases = length alphas /\ Forall (rect (ac_resolution o) (ac_resolution o)) phases.
Proof.
  intros H. destruct (gen_loop_spec o g true (Deg 0) alphas 0 _ phases ltac:(rewrite repeat_length; reflexivity) H) as (L & _ & Hp). rewrite repeat_length in L. split; [exact L|].
  apply Forall_forall. intros m Hm. apply (In_nth _ _ []) in Hm. destruct Hm as (i & Hi & <-). destruct (Hp i ltac:(lia)) as (phi & Ep & En). cbn [plus] in En. rewrite En.
  assert (Rp : rect (ac_resolution o) (ac_resolution o) phi).
  { unfold phase_of in Ep. destruct (gen_coeffs _ _ _) as [K|]; [|discriminate Ep]. cbn [bind] in Ep. destruct (phase K _ _ _ _) as [[[x y] phi']|] eqn:E; [|discriminate Ep]. cbn [bind] in Ep. apply Ok_inj in Ep. subst phi'. exact (phase_rect _ _ _ _ _ _ _ _ E). }
  generalize (length alphas - i)%nat as k. induction k as [|k IH]; [apply rect_map2d; exact Rp|].
  change (rect (ac_resolution o) (ac_resolution o) (corrected o true (Nat.iter k (corrected o true) (map2d Fin phi)))). unfold corrected at 1. apply map2_rect; [exact IH|apply correction_spec].
Qed.
Lemma own_plot fmt gd o fname t s i fig : run (act_init gd o fname) s = (Ok i, s) -> plot_own fmt o i t = Ok fig <-> run (plot_lookup fmt gd o fname (16, 11 / 2) (Some t)) s = (Ok fig, s).
Proof.
  intros H. unfold plot_lookup, plot_own. rewrite run_bind, H. destruct (snd i) as [m|l]; [split; discriminate|]. rewrite run_lift.
  destruct (act_plot _ _ _ _ _ _); (split; intros E; inversion E; reflexivity).
Qed.
Lemma own_ok fmt gd o fname t s z i : 0 < ac_pr o -> (2 <= ac_resolution o)%nat -> s fname = Some (File (Text (table_text z))) ->
  run (act_init gd o fname) s = (Ok i, s) -> exists fig, plot_own fmt o i t = Ok fig.
Proof.
  intros Hp Hr Hs Hi. destruct (plot_lookup_spec fmt gd o fname (16, 11 / 2) (Some t) z s Hp Hr Hs) as (maps & fig & H & _). exists fig. apply (own_plot fmt gd o fname t s i fig Hi). exact H.
Qed.
Lemma N_K_list o : length (nl_list (Z.of_nat (ac_order o))) = ac_N_K o.
Proof. pose proof (nl_list_length_nat (ac_order o)) as H. unfold ac_N_K. rewrite <- H, Nat.mul_comm, Nat.div_mul; lia. Qed.
Lemma N_K_small o : (ac_order o <= 5)%nat -> (ac_N_K o <= 21)%nat.
Proof. intros H. pose proof (N_K_twice o). nia. Qed.
Lemma gravfit_ok o rows Ks Km : (ac_order o <= 5)%nat -> exists f, gravfit o rows Ks Km = Ok f.
Proof.
  intros H. apply mapM_total. intros j Hj. apply in_seq in Hj. unfold gravfit_panel. pose proof (N_K_small o H) as N. pose proof (N_K_list o) as L.
  rewrite (py_get_ok _ (j + 3) (0, 0)%Z) by lia. cbn [bind]. destruct (nth (j + 3) _ _) as [n l]. rewrite (proj2 (Nat.ltb_lt j 18)) by lia. eexists. reflexivity.
Qed.
Lemma model_coeffs o g l : (ac_N_K o <= length g)%nat -> (forall k, (k < ac_N_K o)%nat -> (3 <= length (nth k g []))%nat) -> exists Km, mapM (fun alpha => gen_coeffs o g (Deg alpha)) l = Ok Km.
Proof. intros H1 H2. apply mapM_total. intros alpha _. apply gen_coeffs_ok; assumption. Qed.

(** ** What the panels show *)
Lemma fold_extent x t : extent_of (fun v => In v (x :: t)) (fold_left Rmin t x) (fold_left Rmax t x).
Proof.
  revert x. induction t as [|y t IH] using rev_ind; intros x; [split; [left; reflexivity|split; [left; reflexivity|intros v [<-|[]]; cbn [fold_left]; lra]]|].
  rewrite !fold_left_app. cbn [fold_left]. destruct (IH x) as (A & B & C). assert (U : forall v, In v (x :: t ++ [y]) <-> In v (x :: t) \/ v = y) by (intros v; cbn; rewrite in_app_iff; cbn; intuition auto).
  split; [|split].
  - apply U. unfold Rmin. destruct (Rle_dec _ _); auto.
  - apply U. unfold Rmax. destruct (Rle_dec _ _); auto.
  - intros v Hv. apply U in Hv. pose proof (Rmin_l (fold_left Rmin t x) y). pose proof (Rmin_r (fold_left Rmin t x) y). pose proof (Rmax_l (fold_left Rmax t x) y). pose proof (Rmax_r (fold_left Rmax t x) y).
    destruct Hv as [Hv| ->]; [specialize (C v Hv)|]; lra.
Qed.
Lemma alpha_extent o rows : rows <> [] -> exists lo hi, extent_of (fun t => In t (map tr_meanel rows)) lo hi /\ alpha_list o rows = linspace lo hi (ac_resolution o).
Proof. destruct rows as [|r t]; [congruence|]. intros _. unfold alpha_list. cbn [map]. eexists _, _. split; [apply fold_extent|reflexivity]. Qed.
Lemma pos_bounds n i l : (2 <= i <= n)%nat -> admissible (Z.of_nat i) l -> (3 <= coeff_pos i l < length (nl_list (Z.of_nat n)))%nat /\ nth_error (nl_list (Z.of_nat n)) (coeff_pos i l) = Some (Z.of_nat i, l).
Proof.
  intros Hi Ha. assert (E : nth_error (nl_list (Z.of_nat n)) (coeff_pos i l) = Some (Z.of_nat i, l)) by (apply nl_list_nth; [lia|exact Ha]). split; [|exact E]. split; [|apply nth_error_Some; congruence].
  unfold coeff_pos. destruct Ha as [A _]. apply Nat2Z.inj_le. rewrite Z2Nat.id by (apply Z.div_pos; nia). apply Z.div_le_lower_bound; nia.
Qed.
Lemma map2_nth_error {A B C} (f : A -> B -> C) : forall l m a x d, nth_error l a = Some x -> length l = length m -> nth_error (map2 f l m) a = Some (f x (nth a m d)).
Proof. induction l as [|y l IH]; intros [|w m] [|a] x d H L; cbn in *; try discriminate; [congruence|]. apply IH; [exact H|lia]. Qed.
Lemma panel_shows o rows Ks g Km i l f : rows <> [] -> length Ks = length rows -> mapM (fun alpha => gen_coeffs o g (Deg alpha)) (alpha_list o rows) = Ok Km ->
  gravfit o rows Ks Km = Ok f -> (2 <= i <= ac_order o)%nat -> admissible (Z.of_nat i) l ->
  exists p, nth_error f (coeff_pos i l - 3) = Some p /\ gravity_panel rows Ks (nth (coeff_pos i l) g []) (ac_resolution o) i l p.
Proof.
  intros Nr LK Em Ef Hi Ha. destruct (pos_bounds (ac_order o) i l Hi Ha) as [B E]. rewrite N_K_list in B. set (c := coeff_pos i l) in *.
  pose proof (mapM_length _ _ _ Ef) as LF. rewrite seq_length in LF.
  set (d := {| gp_points := []; gp_x := []; gp_y := []; gp_label := ""; gp_xlim := (0, 0); gp_xlabel := ""; gp_ylabel := "" |}).
  pose proof (PAct5.mapM_nth _ _ _ 0%nat d (c - 3) Ef ltac:(rewrite seq_length; lia)) as X. rewrite seq_nth in X by lia. cbn [plus] in X. unfold gravfit_panel in X. replace (c - 3 + 3)%nat with c in X by lia.
  unfold py_get in X. rewrite E in X. cbn [bind] in X. destruct (Nat.ltb_spec (c - 3) 18) as [L18|]; [|discriminate X]. apply Ok_inj in X.
  exists (nth (c - 3) f d). split; [apply nth_error_nth'; lia|]. rewrite <- X. unfold gravity_panel. cbn [gp_label gp_points gp_x gp_y]. destruct (alpha_extent o rows Nr) as (lo & hi & Ex & EA).
  pose proof (mapM_length _ _ _ Em) as LM. assert (LA : length (alpha_list o rows) = ac_resolution o) by (rewrite EA; apply linspace_length).
  split; [reflexivity|]. split; [|split; [|split; [|split]]].
  - clear -LK. revert Ks LK. induction rows as [|r t IH]; intros [|K Ks] L; cbn in *; try discriminate; [reflexivity|]. f_equal. apply IH. lia.
  - intros a r Hr. rewrite (map2_nth_error _ rows Ks a r [] Hr (eq_sym LK)). cbv beta. replace (nth c (nth a Ks []) 0 * 2 * PI) with (2 * PI * nth c (nth a Ks []) 0) by ring. reflexivity.
  - exists lo, hi. auto.
  - rewrite map_length, LM. exact LA.
  - intros m Hm. pose proof (PAct5.mapM_nth _ _ _ 0 [] m Em ltac:(lia)) as Y. cbv beta in Y. apply gen_coeffs_spec in Y. destruct Y as [LY HY]. exists (nth c (nth m Km []) 0). split; [apply HY; lia|].
    rewrite (nth_map_lt _ _ _ [] 0) by lia. ring.
Qed.

(** ** Order six and above: an exception, and nothing is written *)
Lemma gravfit_six o rows Ks Km f : (6 <= ac_order o)%nat -> gravfit o rows Ks Km <> Ok f.
Proof.
  intros H E. pose proof (N_K_twice o) as N. assert (22 <= ac_N_K o)%nat by nia.
  set (d := {| gp_points := []; gp_x := []; gp_y := []; gp_label := ""; gp_xlim := (0, 0); gp_xlabel := ""; gp_ylabel := "" |}).
  pose proof (PAct5.mapM_nth _ _ _ 0%nat d 18 E ltac:(rewrite seq_length; lia)) as X. rewrite seq_nth in X by lia. unfold gravfit_panel in X. destruct (py_get _ _) as [[n l]|]; discriminate X.
Qed.
Lemma rest_err {A B} (c : prog A) (f : A -> prog B) s : snd (run c s) = s -> (forall a, run c s = (Ok a, s) -> exists e, run (f a) s = (Err e, s)) -> exists e, run (bindP c f) s = (Err e, s).
Proof. intros H1 H2. rewrite run_bind. destruct (run c s) as [[a|e] s1]; cbn in H1; subst s1; [apply H2; reflexivity|exists e; reflexivity]. Qed.
Lemma rest_lift {A B} (r : res A) (f : A -> prog B) s : (forall a, r = Ok a -> exists e, run (f a) s = (Err e, s)) -> exists e, run (bindP (lift r) f) s = (Err e, s).
Proof. intros H. rewrite run_lift_bind. destruct r as [a|e]; [apply H; reflexivity|exists e; reflexivity]. Qed.
Lemma read_coeffs_state base n N rows s : snd (run (read_coeffs base n N rows) s) = s.
Proof.
  induction rows as [|r t IH]; [reflexivity|]. cbn [read_coeffs]. rewrite run_bind. unfold read_parfit. rewrite run_read. destruct (s _) as [[|[]]|]; cbn [run snd]; try reflexivity.
  rewrite run_lift_bind. destruct (assign_row _ _); [|reflexivity]. rewrite run_bind. destruct (run (read_coeffs base n N t) s) as [[?|?] s1]; cbn in IH; subst s1; reflexivity.
Qed.
Lemma order_six k o runs base old dir s : (6 <= ac_order o)%nat -> exists e, run (create_lookup k o runs base old dir) s = (Err e, s).
Proof.
  intros H. assert (X : exists e, run (create_lookup_plots k o runs base old dir) s = (Err e, s)).
  { unfold create_lookup_plots. apply rest_err; [apply init_state|intros i0 _]. apply rest_err; [apply table_unchanged|intros tab _]. cbv zeta.
    apply rest_err; [apply read_coeffs_state|intros Ks _]. apply rest_lift. intros g _. apply rest_err; [destruct (filter _ _); reflexivity|intros [] _].
    apply rest_lift. intros Km _. apply rest_lift. intros ph _. apply rest_lift. intros f1 _. apply rest_lift. intros f2 _. apply rest_lift. intros f4 E. exfalso. exact (gravfit_six o _ _ _ _ H E). }
  destruct X as [e X]. exists e. unfold create_lookup. rewrite run_bind, X. reflexivity.
Qed.
