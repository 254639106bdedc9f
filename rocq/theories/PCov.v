(** Fits with the covariances of co_matrices. *)
From Coq Require Import String List ZArith Lia Lra Sorted Ranalysis1 Classical.
From Verif Require Import PyBase PyLib Sums Num MZernike MMath MAperture MCore MFs MOut MCoMat SOut SFit SMat SBest SRecover SCov PResid PParams PFs PFit PFit2 PFit3 PFit4 PFit5 PFit6 PFit7 PFit9 PMat PCoMat PBest PRecover.
Import ListNotations.
Open Scope R_scope.
Open Scope string_scope.
Open Scope list_scope.
Open Scope prog_scope.

(** ** The amplitude does not change the residual *)
Lemma existsb_zero ex : ~ In 0%Z (map Z.of_nat ex) -> existsb (Nat.eqb 0) ex = false.
Proof.
  intros H. apply Bool.not_true_iff_false. intros E. apply existsb_exists in E. destruct E as (i & I & E). apply Nat.eqb_eq in E. subst i. apply H. exact (in_map Z.of_nat ex 0%nat I).
Qed.
Lemma misfit_amplitude a c n x z : valid_config c -> amplitude_fitted c -> (1 <= n)%nat -> fa_illum a = illum_parabolic -> 0 < tel_pr (fa_tel a) ->
  feasible c n x -> nth 0 x 0 <> 0 -> z <> 0 -> misfit a c n (z :: skipn 1 x) = misfit a c n x.
Proof.
  intros V (A0 & A1 & A2) Hn HI Hpr F Hx Hz. pose proof V as (V1 & V2 & V3 & V4 & ex & EX & HS & HE). pose proof (coeffs_3 n Hn) as N3.
  pose proof (feasible_shape c n x ex V Hn EX HS HE F) as Lx.
  destruct (undelete ex 0 x HS) as (v & Lv & Dv); [intros e He; specialize (HE e He); lia|]. rewrite Lx in Lv.
  rewrite EX in A0. pose proof (existsb_zero ex A0) as E0. destruct v as [|v0 vt]; [discriminate|].
  assert (D : forall y, delete_at 0 ex (y :: vt) = y :: delete_at 1 ex vt) by (intros y; cbn [delete_at]; rewrite E0; reflexivity).
  rewrite D in Dv. subst x. cbn [nth] in Hx. cbn [skipn].
  destruct (params_round_trip (cf_fixed c) ex (coeffs n) (v0 :: vt) V2 HS HE N3 Lv) as (x1 & w & D1 & _ & C & Lw & W).
  destruct (params_round_trip (cf_fixed c) ex (coeffs n) (z :: vt) V2 HS HE N3 Lv) as (x2 & w' & D2 & _ & C' & Lw' & W').
  rewrite np_delete_nat in D1, D2 by (intros e He; specialize (HE e He); cbn [length] in *; lia). apply Ok_inj in D1, D2. rewrite D in D1, D2. subst x1 x2.
  assert (AL : allowed c n w) by (apply allowed_iff; [exact V|exact Hn|]; exists (v0 :: delete_at 1 ex vt); rewrite EX; split; [exact F|exact C]).
  assert (E : w' = z :: skipn 1 w).
  { destruct w as [|w0 wt]; [discriminate|]. apply (nth_ext _ _ 0 0); [cbn [skipn length] in *; lia|]. intros i Hi. rewrite W' by lia. destruct i as [|i].
    - rewrite E0. reflexivity.
    - cbn [nth skipn]. specialize (W (S i) ltac:(lia)). cbn [nth] in W. rewrite W. reflexivity. }
  unfold misfit, residual. rewrite EX, C, C'. cbn [bind]. rewrite E, HI.
  assert (P0 : nth 0 w 0 = v0) by (rewrite (W 0%nat) by lia; rewrite E0; reflexivity).
  assert (Q : 0 < nth 2 w 0).
  { destruct (proj2 AL 2%nat ltac:(lia)) as [B1 B2]. destruct (in_dec Z.eq_dec 2%Z (cf_excluded c)) as [I|I]; [rewrite (B1 I); apply A1, I|].
    specialize (B2 I). specialize (A2 I). rewrite (nth_indep _ (-5) 0) in B2 by lia. lra. }
  destruct w as [|w0 [|w1 [|w2 [|w3 [|w4 K]]]]]; cbn [length] in Lw; try lia. cbn [nth skipn] in *. subst w0. apply residual_amplitude; assumption.
Qed.

(** ** A column of zeros *)
Lemma flat_derivative (g : R -> R) x l : x <> 0 -> (forall z, z <> 0 -> g z = g x) -> derivable_pt_lim g x l -> l = 0.
Proof.
  intros Hx H D. apply (uniqueness_limite g x); [exact D|]. intros eps He. assert (P : 0 < Rabs x) by (apply Rabs_pos_lt, Hx). exists (mkposreal _ P). cbn [pos]. intros h Hh Hl.
  rewrite (H (x + h)). { replace ((g x - g x) / h - 0) with 0 by (field; exact Hh). rewrite Rabs_R0. exact He. }
  intros E. assert (h = - x) by lra. subst h. rewrite Rabs_Ropp in Hl. lra.
Qed.
Lemma zero_column m n J : (0 < n)%nat -> (forall k, (k < m)%nat -> at_ J k 0 = 0) -> ~ independent_columns m n J.
Proof.
  intros Hn H I. specialize (I (fun j => if Nat.eqb j 0 then 1 else 0)). enough (X : 1 = 0) by lra. apply (I) with (j := 0%nat); [|exact Hn].
  intros k Hk. rewrite (Rsum_ext n _ (fun _ => 0)). { apply (Rsum_extend 0 n); [lia|reflexivity]. }
  intros j Hj. destruct j as [|j]; [rewrite H by exact Hk; ring|cbn [Nat.eqb]; ring].
Qed.
Lemma no_covariance a c n out : valid_config c -> amplitude_fitted c -> (1 <= n)%nat -> fa_illum a = illum_parabolic -> 0 < tel_pr (fa_tel a) ->
  feasible c n (lo_x out) -> overdetermined out -> nth 0 (lo_x out) 0 <> 0 ->
  derivatives (misfit a c n) (lo_x out) (lo_jac out) \/ differences (misfit a c n) (lo_x out) (lo_jac out) ->
  co_matrices (lo_fun out) (lo_jac out) (length (lo_x out)) = Err LinAlgError.
Proof.
  intros V A Hn HI Hpr F (M & L) Hx HJ. pose proof V as (V1 & V2 & V3 & V4 & ex & EX & HS & HE). pose proof (feasible_shape c n _ ex V Hn EX HS HE F) as Lx. pose proof (coeffs_3 n Hn) as N3.
  assert (P : (0 < length (lo_x out))%nat) by (destruct (lo_x out); [cbn in Hx; lra|cbn; lia]).
  apply (comat_singular _ _ _ _ _ M); [lia|exact L|]. apply zero_column; [exact P|]. intros k Hk. rewrite <- (proj1 M) in Hk.
  assert (FL : forall z, z <> 0 -> along (misfit a c n) (lo_x out) 0 z = misfit a c n (lo_x out)) by (intros z Hz; exact (misfit_amplitude a c n (lo_x out) z V A Hn HI Hpr F Hx Hz)).
  destruct HJ as [HJ|(h & Hh & HJ)].
  - apply (flat_derivative _ _ _ Hx) with (2 := HJ k 0%nat Hk P). intros z Hz. rewrite (FL z Hz), (FL _ Hx). reflexivity.
  - rewrite (HJ k 0%nat Hk P), FL by apply Hh. unfold Rminus. rewrite Rplus_opp_r. unfold Rdiv. ring.
Qed.

(** ** An order whose covariance fails *)
Lemma order_fails orc a c snrs d n s init e : valid_config c -> (1 <= n)%nat -> length init = (5 + coeffs n)%nat ->
  run (start_params c (fa_fit_previous a) d n) s = (Ok init, s) ->
  (forall out, answered orc a c n init out -> length (lo_fun out) mod 3 = 0%nat /\ (exists p, params_complete (cf_fixed c) (cf_excluded c) (coeffs n) (lo_x out) = Ok p) /\
     forall k, (k + length (cf_excluded c) = 5 + coeffs n)%nat -> or_comat orc (lo_fun out) (lo_jac out) k = Err e) ->
  (exists out, answered orc a c n init out) -> run (fit_order orc a c snrs d n) s = (Err e, s).
Proof.
  intros (Hci & Hcf & Hcl & Hch & ex & Hex & Hs & He) Hn Hlen Hst H (out & x0 & lo & hi & E1 & E2 & E3 & E4). pose proof (coeffs_3 n Hn) as N3.
  assert (AN : answered orc a c n init out) by (exists x0, lo, hi; tauto). destruct (H out AN) as (Lo & (p & Ep) & K).
  assert (Lx : (length x0 + length (cf_excluded c) = 5 + coeffs n)%nat).
  { rewrite Hex in E1 |- *. rewrite np_delete_nat in E1 by (intros i Hi; specialize (He i Hi); lia). apply Ok_inj in E1. subst x0. rewrite map_length, <- Hlen. apply (delete_at_length init 0 ex Hs). intros i Hi. specialize (He i Hi). lia. }
  unfold fit_order. cbv zeta. rewrite run_bind, Hst. change (n_coeff n) with (coeffs n). rewrite E1, E2, E3. cbn [lift bindP].
  change (fun p0 : list R => residual (fa_illum a) (fa_tel a) (cf_fixed c) (cf_excluded c) (coeffs n) p0 (fa_beam a) (fa_u a) (fa_v a) (fa_d_z a) (fa_wavel a) (fa_resolution a) (fa_box_factor a)) with (misfit a c n).
  rewrite E4. cbn [lift bindP]. rewrite Ep. cbn [lift bindP]. destruct (reshape3_ok (lo_fun out) Lo) as (rr & ->). cbn [lift bindP]. rewrite (K (length x0) Lx). reflexivity.
Qed.
Lemma first_fails orc a s c e : wf s -> usable (fit_dir a) s -> free_number a s -> configured a s c -> valid_config c -> three_maps a -> (1 <= fa_order_max a)%nat ->
  (exists out, answered orc a c 1 (cf_init c) out) ->
  (forall out, answered orc a c 1 (cf_init c) out -> (length (lo_fun out) mod 3 = 0)%nat /\ (length (lo_x out) + length (cf_excluded c) = 8)%nat /\
     or_comat orc (lo_fun out) (lo_jac out) (length (lo_x out)) = Err e) ->
  exists s', run (fit_zpoly orc a) s = (Err e, s') /\ no_new_file s s'.
Proof.
  intros W Hu Hf Hc Hv H3 H1 HE HX. unfold fit_zpoly. cbv zeta. fold (fit_dir a). rewrite run_bind, (load_configured a s c Hc).
  rewrite run_bind. destruct (pick_ok (fit_dir a) (fa_name a) s Hu Hf) as (d & s1 & Ed). rewrite Ed.
  destruct (snr_values_ok orc a H3) as (snrs & ->). cbn [lift bindP].
  apply pick_post in Ed; [|exact W]. destruct Ed as [(j & Hj & Ed & Hn & _ & Hab & Hnab)|(Hall & _)]; [|exfalso; destruct Hf as (j & Hj & Hn); exact (Hall j Hj Hn)].
  destruct (fa_order_max a) as [|N] eqn:EN; [lia|]. cbn [seq fit_orders]. rewrite run_bind. pose proof Hv as (V1 & V2 & _ & _ & ex & EX & HS & He).
  rewrite (order_fails orc a c snrs d 1 s1 (cf_init c) e Hv (le_n 1) V1).
  - exists s1. split; [reflexivity|]. intros q dc Hq. destruct (classic (above q d)) as [Q|Q]; [rewrite (Hab q Q) in Hq; discriminate|]. rewrite <- (Hnab q Q). exact Hq.
  - rewrite (start_run a c d 1 s1 []). { unfold start_of. cbn [Nat.eqb negb]. rewrite andb_false_r. cbn [repeat]. change (n_coeff 1 - 3)%nat with 0%nat. cbn [repeat]. rewrite app_nil_r. reflexivity. }
    subst d. eapply fresh_ready; eauto.
  - intros out AN. destruct (HX out AN) as (Lo & Lx & EC). split; [exact Lo|]. rewrite EX in Lx |- *. rewrite map_length in *. split.
    + apply (complete_always (cf_fixed c) ex 1 (lo_x out) V2 HS He (le_n 1) Lx).
    + intros k Hk. change (5 + coeffs 1)%nat with 8%nat in Hk. replace k with (length (lo_x out)) by lia. exact EC.
  - exact HE.
Qed.
Lemma fit_fails orc a s c : wf s -> usable (fit_dir a) s -> free_number a s -> configured a s c -> valid_config c -> amplitude_fitted c -> fa_illum a = illum_parabolic ->
  0 < tel_pr (fa_tel a) -> three_maps a -> (1 <= fa_order_max a)%nat -> own_covariances orc -> least_squares_answers orc a c ->
  (exists out, answered orc a c 1 (cf_init c) out) -> (forall out, answered orc a c 1 (cf_init c) out -> (length (lo_fun out) mod 3 = 0)%nat /\ nth 0 (lo_x out) 0 <> 0) ->
  exists s', run (fit_zpoly orc a) s = (Err LinAlgError, s') /\ no_new_file s s'.
Proof.
  intros W Hu Hf Hc Hv HA HI Hpr H3 H1 HO HL HE HX. apply (first_fails orc a s c); try assumption. intros out AN. destruct (HX out AN) as [Lo X0]. pose proof Hv as (V1 & V2 & _ & _ & ex & EX & HS & He).
  destruct (HL 1%nat (cf_init c) out ltac:(lia) V1 AN) as (F & M & OD & JJ). split; [exact Lo|]. pose proof (feasible_shape c 1 _ ex Hv (le_n 1) EX HS He F) as Lx. split; [rewrite EX, map_length; exact Lx|].
  rewrite HO. apply (no_covariance a c 1 out); try assumption; lia.
Qed.
(** An exact fit of order 1 fails, too. *)
Lemma exact_fails orc a s c : wf s -> usable (fit_dir a) s -> free_number a s -> configured a s c -> valid_config c -> (length (cf_excluded c) < 8)%nat -> three_maps a -> (1 <= fa_order_max a)%nat ->
  own_covariances orc -> (exists out, answered orc a c 1 (cf_init c) out) ->
  (forall out, answered orc a c 1 (cf_init c) out -> (length (lo_fun out) mod 3 = 0)%nat /\ feasible c 1 (lo_x out) /\ overdetermined out /\ forall t, In t (lo_fun out) -> t = 0) ->
  exists s', run (fit_zpoly orc a) s = (Err LinAlgError, s') /\ no_new_file s s'.
Proof.
  intros W Hu Hf Hc Hv H8 H3 H1 HO HE HX. apply (first_fails orc a s c); try assumption. intros out AN. destruct (HX out AN) as (Lo & F & (M & L) & Z). pose proof Hv as (V1 & V2 & _ & _ & ex & EX & HS & He).
  pose proof (feasible_shape c 1 _ ex Hv (le_n 1) EX HS He F) as Lx. rewrite EX, map_length in *. split; [exact Lo|]. split; [exact Lx|]. rewrite HO. change (5 + coeffs 1)%nat with 8%nat in Lx.
  apply (comat_exact _ _ _ _ _ M); [lia|lia|exact L|]. intros k Hk. apply Z, nth_In, Hk.
Qed.
