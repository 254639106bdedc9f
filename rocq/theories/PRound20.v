(** A fit whose optimizer minimises the cost in binary64. *)
From Coq Require Import Reals ZArith List Lia Lra.
From Verif Require Import PyBase PyLib Num MMath MAperture MTel MRad MCore MFs MOut SOut SFit SBest MSim MAux SRecover SCore SFloat MFloat MFloat2 MFloat3 MFloat4 MFloat5 MFloat6 SRad SGain SRound SRound2 SRound3 SRound4 SRound5 PRecover PRound14 PRound19.
Import ListNotations.
Open Scope R_scope.
Open Scope list_scope.

Section Fit.
Variables (e ef : R) (m : maths) (pr sr b L Fp F : R) (a : fit_args) (c : config) (orc : oracle) (M m0 : nat) (E k tol : R) (cost : list R -> R).
Hypothesis (Hi : fa_illum a = illum_parabolic) (Ht : fa_tel a = manual pr sr b L Fp F).
Hypothesis (H1 : unit_roundoff <= e) (H2 : accurate_maths e m) (H3 : accurate_fft ef (m_fft m)) (H4 : 0 <= ef <= / 1000) (H5 : INR (fa_resolution a) <= 2 ^ 20).
Hypothesis (H6 : exists i j, (i < fa_resolution a)%nat /\ (j < fa_resolution a)%nat /\ block_manual pr sr b L (sample (pr * fa_box_factor a) (fa_resolution a) i) (sample (pr * fa_box_factor a) (fa_resolution a) j) <> 0).
Hypothesis (H8 : (0 < M)%nat) (H9 : map (@length num) (fa_beam a) = [M; M; M]) (H10 : map (@length R) (fa_u a) = [M; M; M]) (H11 : map (@length R) (fa_v a) = [M; M; M]) (H12 : length (fa_d_z a) = 3%nat).
Hypothesis (H13 : forall x, In x (concat (fa_u a) ++ concat (fa_v a)) -> well_inside (grid_step pr (fa_wavel a) (fa_resolution a) (fa_box_factor a)) (fa_resolution a) x) (H14 : forall b, In b (fa_beam a) -> resolved b).
Hypothesis (HE : 0 <= E <= 1) (Hk : 0 <= k) (Hc : accurate_cost k (3 * M) cost).
Hypothesis (Hv : valid_config c) (Hm : (1 <= m0)%nat).
Hypothesis (Hp : forall n p, (m0 <= n <= fa_order_max a)%nat -> allowed c n p -> predictable e ef pr sr b L Fp F (fa_box_factor a) (fa_wavel a) (fa_resolution a) (fa_u a) (fa_v a) (fa_d_z a) E p).
Hypothesis Hb : cheapest_from m cost (manual64 pr sr b L Fp F) orc a c m0 tol.

Lemma cheapest_best : best_from orc a c m0 (2 * INR M * (9 * E + 13 * k) + tol).
Proof.
  intros n start out Hn Ls A. destruct (Hb n start out Hn Ls A) as (F1 & F2 & F3). split; [exact F1|]. split; [exact F2|]. intros x r Fx X.
  assert (FA : forall y, feasible c n y -> exists q, allowed c n q /\ params_complete (cf_fixed c) (cf_excluded c) (coeffs n) y = Ok q).
  { intros y Fy. destruct (params_complete (cf_fixed c) (cf_excluded c) (coeffs n) y) as [q|] eqn:Q.
    - exists q. split; [|reflexivity]. apply allowed_iff; [exact Hv|lia|]. exists y. split; assumption.
    - exfalso. destruct (Hv) as (_ & Lf & _ & _ & ex & Ee & Es & Eb).
      destruct (PBest.complete_always (cf_fixed c) ex n y Lf Es Eb ltac:(lia) (PBest.feasible_shape c n y ex Hv ltac:(lia) Ee Es Eb Fy)) as [q Q']. rewrite <- Ee, Q in Q'. discriminate. }
  destruct (FA _ F1) as (p & Ap & Cp), (FA _ Fx) as (q & Aq & Cq).
  unfold misfit, residual in F2, X. rewrite Cp in F2. rewrite Cq in X. cbn [bind] in F2, X. rewrite Hi, Ht in F2, X.
  assert (B : forall z r64 s64, p = z \/ q = z -> residual_true64 m (illum_parabolic64 m) (manual64 pr sr b L Fp F) p (fa_beam a) (fa_u a) (fa_v a) (fa_d_z a) (fa_wavel a) (fa_resolution a) (fa_box_factor a) = Ok r64 ->
    residual_true64 m (illum_parabolic64 m) (manual64 pr sr b L Fp F) z (fa_beam a) (fa_u a) (fa_v a) (fa_d_z a) (fa_wavel a) (fa_resolution a) (fa_box_factor a) = Ok s64 -> cost r64 <= cost s64 + tol).
  { intros z r64 s64 [<-|<-] R1 R2.
    - apply (F3 (lo_x out)); [exact F1| |]; unfold misfit64, residual64; rewrite Cp; assumption.
    - apply (F3 x); [exact Fx| |]; unfold misfit64, residual64; rewrite ?Cp, ?Cq; assumption. }
  assert (PP : forall z, p = z \/ q = z -> predictable e ef pr sr b L Fp F (fa_box_factor a) (fa_wavel a) (fa_resolution a) (fa_u a) (fa_v a) (fa_d_z a) E z) by (intros z [<-|<-]; apply (Hp n); assumption).
  destruct (cost_best e ef m pr sr b L Fp F (fa_box_factor a) (fa_wavel a) (fa_resolution a) (fa_beam a) (fa_u a) (fa_v a) (fa_d_z a) M E k cost H1 H2 H3 H4 H5 H6 H8 H9 H10 H11 H12 H13 H14 HE Hk Hc (fun z => p = z \/ q = z) tol p PP (or_introl eq_refl) B) as (r1 & R1 & R2).
  destruct (R2 q (or_intror eq_refl)) as (s & R3 & R4). rewrite F2 in R1. apply Ok_inj in R1. rewrite X in R3. apply Ok_inj in R3. subst r1 s. exact R4.
Qed.
End Fit.
