(** A fit has a best answer: consequences and an example. *)
From Coq Require Import String Ascii List ZArith Lia Lra Classical.
From Verif Require Import PyBase PyLib Num MZernike SZernike MMath SMath MAperture MTel MRad MCore SCore SRad MFs MOut MAux MSim SOut SFit SBest SGain SRecover SPlot SLip PNorm PIllum PRad PResid PSim PEnd PGain2 PGain3 PBest PBest2 PRecover PRecover2 PRecover3 PFar PFs PDemo PTel PBox PLip PLip2.
From Coquelicot Require Import Complex.
Import ListNotations.
Open Scope R_scope.
Open Scope list_scope.

Lemma misfit_inv a c n x r : misfit a c n x = Ok r <-> exists p, params_complete (cf_fixed c) (cf_excluded c) (coeffs n) x = Ok p /\ explained a p r.
Proof.
  unfold misfit, explained, residual. destruct (params_complete (cf_fixed c) (cf_excluded c) (coeffs n) x) as [p|]; cbn [bind].
  - split; [intros E; exists p; auto|intros (p' & E & H); apply Ok_inj in E; subst p'; exact H].
  - split; [discriminate|intros (p' & E & _); discriminate E].
Qed.
Lemma optimal_of_best a c n q r : valid_config c -> (1 <= n)%nat -> allowed c n q -> explained a q r -> (forall q' r', allowed c n q' -> explained a q' r' -> sum_sq r <= sum_sq r') ->
  exists out, optimal a c n 0 out /\ lo_fun out = r.
Proof.
  intros Hv Hn Ha He Hb. destruct (proj1 (allowed_iff c n q Hv Hn) Ha) as (x & Fx & Ex).
  exists {| lo_x := x; lo_fun := r; lo_jac := []; lo_grad := [] |}. split; [|reflexivity]. split; [exact Fx|]. split; [apply misfit_inv; exists q; auto|].
  intros x' r' Fx' E'. apply misfit_inv in E' as (p' & Ep' & Er'). cbn [lo_fun]. rewrite Rplus_0_r. apply (Hb p'); [|exact Er'].
  apply (allowed_iff c n p' Hv Hn). exists x'. auto.
Qed.

Lemma varies_amp a s cdb q x0 y0 K : fa_illum a = illum_parabolic -> 0 < tel_pr (fa_tel a) -> 0 < q -> s <> 0 -> varies a (1 :: cdb :: q :: x0 :: y0 :: K) -> varies a (s :: cdb :: q :: x0 :: y0 :: K).
Proof.
  intros Hill Hp Hq Hs HV i Hi. destruct (HV i Hi) as (m & t & t' & E & It & It' & N). exists (map (Rmult (s ^ 2)) m), (s ^ 2 * t), (s ^ 2 * t').
  split; [|split; [apply in_map; exact It|split; [apply in_map; exact It'|]]].
  - unfold modelled in *. rewrite Hill in *. rewrite (model_row_gen illum_parabolic (fa_tel a) (1 :: cdb :: q :: x0 :: y0 :: K) (s :: cdb :: q :: x0 :: y0 :: K) _ _ _ _ _ _ (s ^ 2)); [rewrite E; reflexivity| |]; cbn [firstn skipn].
    + intros dz u v F H. pose proof (power_gain_parabolic (fa_tel a) s 1 cdb q x0 y0 K dz _ _ _ u v F Hp Hq H) as G. rewrite Rmult_1_r in G. exact G.
    + intros dz e H. destruct (rad_err _ _ _ _ _ _ _ _ _ H) as [[HN ->]|[HN HA]].
      * apply rad_small. exact HN.
      * rewrite rad_unfold by assumption. cbv zeta. unfold aperture in *. cbv zeta in *. destruct (wavefront K) as [W|e0]; cbn [bind] in *; [|congruence]. discriminate.
  - intros Q. apply N. apply (Rmult_eq_reg_l (s ^ 2)); [exact Q|]. apply pow_nonzero. exact Hs.
Qed.

Lemma sum_sq_in x l : In x l -> x * x <= sum_sq l.
Proof.
  induction l as [|y l IH]; [intros []|]. intros H. rewrite sum_sq_cons. pose proof (sum_sq_nonneg l). destruct H as [->|H]; [lra|]. specialize (IH H). nra.
Qed.
Lemma norm_top v s t q : In s v -> In t v -> s <> t -> norm_all (map Fin v) = Ok q -> In 1 q.
Proof.
  intros Is It Hst E. destruct (norm_finite v) as (mn & mx & Imn & Imx & B & E2); [intros ->; exact Is|]. rewrite E2 in E. apply Ok_inj in E. subst q.
  apply in_map_iff. exists mx. split; [|exact Imx]. pose proof (B s Is). pose proof (B t It). destruct (Req_EM_T mn mx); [exfalso; apply Hst; lra|]. field. lra.
Qed.
Lemma jump a cdb q x0 y0 K n v s t r : comparable a -> fa_illum a = illum_parabolic -> 0 < q -> (2 * length K = (n + 1) * (n + 2))%nat -> In (map Fin v) (fa_beam a) -> In s v -> In t v -> s <> t ->
  explained a (1 :: cdb :: q :: x0 :: y0 :: K) r ->
  (forall i_amp, i_amp <> 0 -> explained a (i_amp :: cdb :: q :: x0 :: y0 :: K) r) /\ exists r0, explained a (0 :: cdb :: q :: x0 :: y0 :: K) r0 /\ 1 <= sum_sq r0.
Proof.
  intros HC Hill Hq HK Hb Is It Hst Er. split.
  - intros g Hg. unfold explained in *. rewrite Hill in *. rewrite <- Er. apply residual_amplitude; try assumption; [|lra]. destruct HC as (_ & H & _). exact H.
  - destruct (zero_residual a cdb q x0 y0 K n HC Hill Hq HK) as (b0 & b1 & b2 & d0 & d1 & d2 & Eb & D0 & D1 & D2 & E0). exists (d0 ++ d1 ++ d2). split; [exact E0|].
    assert (I1 : In 1 (d0 ++ d1 ++ d2)). { rewrite !in_app_iff. rewrite Eb in Hb. destruct Hb as [-> |[-> |[-> |[]]]]; [left; apply (norm_top v s t); assumption|right; left; apply (norm_top v s t); assumption|right; right; apply (norm_top v s t); assumption]. }
    pose proof (sum_sq_in _ _ I1). lra.
Qed.

(** ** The tilted telescope *)
Lemma tilt_comparable t : comparable (tilt_args t).
Proof.
  unfold comparable. cbn [fa_wavel fa_tel fa_box_factor fa_resolution fa_beam fa_u fa_v fa_d_z tilt_args]. change (tel_pr demo_tel) with 50.
  split; [lra|]. split; [lra|]. split; [lra|]. split; [lia|]. split; [intros x y; exact (block_outside 50 3 1 20 x y)|]. exists 4%nat. split; [lia|].
  split; [cbn [map length]; rewrite map_length; reflexivity|]. do 3 (split; [reflexivity|]).
  intros x Hx. assert (x = - (1 / 2000) \/ x = 0) as Hx' by (cbn in Hx; repeat (destruct Hx as [<-|Hx]; [auto|]); destruct Hx).
  assert (G : SCore.grid_step 50 (1 / 100) 2 (1 / 10) = 1 / 2000) by (unfold SCore.grid_step; cbn [INR]; field). rewrite G. unfold in_grid. cbn [Nat.div Nat.divmod fst Nat.sub INR]. destruct Hx' as [-> | ->]; lra.
Qed.
Lemma tilt_varies t t' : 0 <= t <= 1 -> varies (tilt_args t') [1; - (29 / 2); 7 / 5; 0; 0; 0; 0; t].
Proof.
  intros H i Hi. exists (tilt_map t), 0, (16 * spot_A ^ 2 * cos (t * PI / 5) ^ 2). split; [exact (tilt_row t t' i Hi)|]. split; [left; reflexivity|]. split; [right; right; right; left; reflexivity|].
  destruct (tilt_norm t H) as (_ & _ & Hc). pose proof spot_A_pos. assert (0 < spot_A ^ 2) by (apply pow_lt; assumption). assert (0 < cos (t * PI / 5) ^ 2) by (apply pow_lt; assumption). nra.
Qed.
(** The configuration of the example with a free amplitude between 0 and 10. *)
Definition tilt_free : config := {|
  cf_bound_max := [10; -1; 2; 1; 1; 5; 5; 1]; cf_bound_min := [0; -25; 1; -1; -1; -5; -5; 0];
  cf_excluded := [1; 2; 3; 4; 5; 6]%Z; cf_fixed := [1; - (29 / 2); 7 / 5; 0; 0; 0; 0; 0]; cf_init := [1; -10; 3 / 2; 0; 0; 0; 0; 1 / 10] |}.
Lemma tilt_free_allowed q : allowed tilt_free 1 q <-> exists s t, 0 <= s <= 10 /\ 0 <= t <= 1 /\ q = [s; - (29 / 2); 7 / 5; 0; 0; 0; 0; t].
Proof.
  split.
  - intros [L H]. change (5 + coeffs 1)%nat with 8%nat in *. destruct q as [|q0 [|q1 [|q2 [|q3 [|q4 [|q5 [|q6 [|q7 [|q8 q]]]]]]]]]; try discriminate L. exists q0, q7.
    assert (X : forall i, (1 <= i < 7)%nat -> nth i [q0; q1; q2; q3; q4; q5; q6; q7] 0 = nth i (cf_fixed tilt_free) 0). { intros i Hi. apply (H i ltac:(lia)). cbn [cf_excluded tilt_free In]. lia. }
    pose proof (X 1%nat ltac:(lia)) as X1. pose proof (X 2%nat ltac:(lia)) as X2. pose proof (X 3%nat ltac:(lia)) as X3. pose proof (X 4%nat ltac:(lia)) as X4. pose proof (X 5%nat ltac:(lia)) as X5. pose proof (X 6%nat ltac:(lia)) as X6. cbn in X1, X2, X3, X4, X5, X6. subst.
    pose proof (proj2 (H 0%nat ltac:(lia)) ltac:(cbn; lia)) as H0. pose proof (proj2 (H 7%nat ltac:(lia)) ltac:(cbn; lia)) as H7. cbn in H0, H7. split; [lra|]. split; [lra|reflexivity].
  - intros (s & t & Hs & Ht & ->). split; [reflexivity|]. change (5 + coeffs 1)%nat with 8%nat. intros i Hi. split.
    + cbn [cf_excluded tilt_free In]. intros X. destruct i as [|[|[|[|[|[|[|[|i]]]]]]]]; try lia; reflexivity.
    + cbn [cf_excluded tilt_free In]. intros X. destruct i as [|[|[|[|[|[|[|[|i]]]]]]]]; try lia; cbn; lra.
Qed.
