(** Rounding errors of the residual and of the cost for the Effelsberg telescope with a gaussian illumination. *)
From Coq Require Import Reals List Lra Lia ZArith.
From Verif Require Import PyBase PyLib Sums Num MMath MAperture MTel MRad MCore MFs MOut SOut SFit SBest MSim MAux SRecover SMath SCore SFloat MFloat MFloat2 MFloat3 MFloat4 MFloat5 MFloat6 MFloat7 MFloat8 SRad SGain SRound SRound2 SRound3 SRound4 SRound5 SRound6 SRound7 SRound9 SRound10 POrder64 PRound PRound4 PRound5 PRound9 PRound10 PRad PFar PResid PSim PNorm PEnd PLip PLip2 PRecover PRound14 PRound15 PRound16 PRound17 PRound19 PRound27 PRound28 PRound29 PRound34.
From Coquelicot Require Import Complex.
Import ListNotations.
Open Scope R_scope.
Open Scope list_scope.

Section Effelsberg.
Variables (e ef alpha X Y : R) (m : maths) (mcsc2 mtan mexp msq : R -> R) (n : nat) (K : list R) (bf wavel i_amp c_dB q x0 y0 : R) (N : nat).
Hypotheses (Ue : u <= e) (Hm : accurate_maths e m) (Hl : accurate_slopes e mcsc2 mtan alpha) (Hg : accurate_gauss e mexp msq) (Hfft : accurate_fft ef (m_fft m)) (Hef : 0 <= ef <= / 1000) (HN : INR N <= 2 ^ 20)
  (Hopen : exists i j, (i < N)%nat /\ (j < N)%nat /\ block_effelsberg alpha (sample (50 * bf) N i) (sample (50 * bf) N j) <> 0).
Let Ic := [i_amp; c_dB; q; x0; y0].
Let h := grid_step 50 wavel N bf.
Let top := (gauss_peak i_amp c_dB * over_samples (50 * bf) N (block_effelsberg alpha)) ^ 2.
Let reach z := reach_eff_gauss e alpha X Y n K bf wavel z i_amp c_dB x0 y0 N.
Let loss z := gauss_loss n bf c_dB (turns K z wavel) * e + ef.

Lemma effg_top z : reach z -> / 2 ^ 200 <= top.
Proof.
  intros (_ & _ & _ & _ & _ & Ha & _). destruct Hopen as (i & j & Hi & Hj & Hb). pose proof (eff_open alpha bf N i j Hi Hj Hb) as O. unfold top. assert (P : 0 < / 2 ^ 100) by (apply Rinv_0_lt_compat, pow_lt; lra).
  replace (/ 2 ^ 200) with ((/ 2 ^ 100) ^ 2) by (rewrite pow_inv, <- pow_mult; reflexivity). apply pow_incr. split; [lra|]. rewrite <- (Rmult_1_r (/ 2 ^ 100)). apply Rmult_le_compat; lra.
Qed.
Lemma effg_step z : reach z -> (2 <= N)%nat /\ tiny <= h.
Proof.
  intros (_ & _ & (Hb & Hpb & _ & N2 & _ & Hwl) & _). assert (P : 0 < / 2 ^ 100) by (apply Rinv_0_lt_compat, pow_lt; lra). split; [exact N2|]. destruct small_300 as [T3 _].
  assert (I2 : 2 <= INR N) by (apply le_INR in N2; cbn [INR] in N2; lra). apply Rle_trans with (1 := T3). apply Rle_trans with (/ 2 ^ 100 * / 2 ^ 102); [rewrite <- Rinv_mult, <- pow_add; apply Rinv_le_contravar; [apply pow_lt; lra|apply Rle_pow; [lra|lia]]|].
  unfold h, grid_step. replace (wavel * (INR N - 1) / (2 * (bf * 50) * INR N)) with (wavel * ((1 - / INR N) * / (2 * (50 * bf)))) by (field; split; lra).
  assert (B0 : 0 < 50 * bf) by lra. assert (Hi : / INR N <= / 2) by (apply Rinv_le_contravar; lra). assert (J : / (2 * 2 ^ 100) <= / (2 * (50 * bf))) by (apply Rinv_le_contravar; lra). assert (P2 : 0 < / 2 ^ 102) by (apply Rinv_0_lt_compat, pow_lt; lra).
  apply Rmult_le_compat; [lra|lra|lra|]. replace (/ 2 ^ 102) with (/ 2 * / (2 * 2 ^ 100)) by (rewrite <- Rinv_mult; f_equal; ring). assert (0 < / (2 * 2 ^ 100)) by (apply Rinv_0_lt_compat; assert (0 < 2 ^ 100) by (apply pow_lt; lra); lra). apply Rmult_le_compat; lra.
Qed.
Lemma effg_lossy z : reach z -> loss z <= 2 / 1000.
Proof. intros (_ & _ & _ & _ & _ & _ & _ & _ & H). unfold loss. lra. Qed.
Lemma effg_both z : reach z -> exists ua F0 ua64 F64, radiation_pattern illum_gauss (eff alpha) Ic K z wavel N bf = Ok (ua, ua, F0) /\ radiation_pattern64 m (illum_gauss64 m mexp msq) (eff64 mcsc2 mtan alpha) Ic K z wavel N bf = Ok (ua64, ua64, F64) /\
  length ua = N /\ length ua64 = N /\ (forall k, (k < N)%nat -> nth k ua 0 = (INR k - INR (N / 2)) * h) /\ (forall k, (k < N)%nat -> Rabs (nth k ua64 0 - nth k ua 0) <= INR N * / 2 ^ 49 * Rabs (nth k ua 0)) /\
  forall j i, (j < N)%nat -> (i < N)%nat -> Rabs (nth i (nth j (power_pattern64 m F64) []) 0 - nth i (nth j (power_pattern F0) []) 0) <= 5 * loss z * top /\ 0 <= nth i (nth j (power_pattern F0) []) 0 <= top.
Proof.
  intros Hw. assert (W0 : 0 < wavel /\ 0 < bf). { destruct Hw as (_ & _ & (Hb & _ & _ & _ & _ & Hwl) & _). assert (P : 0 < / 2 ^ 100) by (apply Rinv_0_lt_compat, pow_lt; lra). lra. } destruct W0 as [W0 B0].
  destruct (PRound34.effg_pattern e ef alpha X Y m mcsc2 mtan mexp msq n K bf wavel z i_amp c_dB x0 y0 N Ic Ue Hm Hl Hg eq_refl eq_refl Hw Hfft Hef) as (ua & va & F0 & ua64 & va64 & F64 & E1 & E2 & L1 & V1 & _ & A1 & _).
  destruct (PRound34.effg_power e ef alpha X Y m mcsc2 mtan mexp msq n K bf wavel z i_amp c_dB x0 y0 N Ic Ue Hm Hl Hg eq_refl eq_refl Hw Hfft Hef Hopen) as (ua' & va' & F0' & ua64' & va64' & F64' & E1' & E2' & Pw). fold Ic in E1, E2, E1', E2'.
  rewrite E1 in E1'. apply Ok_inj in E1'. rewrite E2 in E2'. apply Ok_inj in E2'. assert (F0' = F0) by congruence. assert (F64' = F64) by congruence. subst F0' F64'. clear E1' E2'.
  destruct (axes_api _ (eff alpha) _ _ _ _ _ _ _ _ _ W0 ltac:(cbn; lra) B0 E1) as (Q & Lu & _ & _ & _ & A). cbv zeta in A. destruct A as (_ & An & _). cbn [tel_pr eff] in An. subst va va64.
  exists ua, F0, ua64, F64. split; [exact E1|]. split; [exact E2|]. split; [exact Lu|]. split; [exact L1|]. split; [exact An|]. split; [exact A1|]. exact Pw.
Qed.

Lemma effg_row u_data v_data d_z i z xs ys l : reach_eff_gauss e alpha X Y n K bf wavel z i_amp c_dB x0 y0 N -> gauss_loss n bf c_dB (turns K z wavel) * e + ef <= l ->
  nth_error d_z i = Some z -> nth_error u_data i = Some xs -> nth_error v_data i = Some ys -> length xs = length ys -> (forall x, In x (xs ++ ys) -> well_inside (grid_step 50 wavel N bf) N x) ->
  exists row row64, model_row illum_gauss (eff alpha) ([i_amp; c_dB; q; x0; y0] ++ K) u_data v_data d_z wavel N bf i = Ok row /\ length row = length xs /\
    model_row64 m (illum_gauss64 m mexp msq) (eff64 mcsc2 mtan alpha) ([i_amp; c_dB; q; x0; y0] ++ K) u_data v_data d_z wavel N bf i = Ok row64 /\
    close ((5 * l + INR N ^ 2 * / 2 ^ 46) * (gauss_peak i_amp c_dB * over_samples (50 * bf) N (block_effelsberg alpha)) ^ 2) row64 row.
Proof. intros Hw. exact (PRound28.row_api m illum_gauss (illum_gauss64 m mexp msq) (eff alpha) (eff64 mcsc2 mtan alpha) i_amp c_dB q x0 y0 K 50 bf wavel N top loss reach HN (effg_top z Hw) effg_step effg_lossy effg_both u_data v_data d_z i z xs ys l Hw). Qed.

Section Residual.
Variables (beam : list (list num)) (u_data v_data : list (list R)) (d_z : list R) (M : nat).
Hypotheses (Hw : forall z, In z d_z -> reach z)
  (HM : (0 < M)%nat) (Lb : map (@length num) beam = [M; M; M]) (Lu : map (@length R) u_data = [M; M; M]) (Lv : map (@length R) v_data = [M; M; M]) (Lz : length d_z = 3%nat).
Let ex := residual_true illum_gauss (eff alpha) ([i_amp; c_dB; q; x0; y0] ++ K) beam u_data v_data d_z wavel N bf.
Let fx := residual_true64 m (illum_gauss64 m mexp msq) (eff64 mcsc2 mtan alpha) ([i_amp; c_dB; q; x0; y0] ++ K) beam u_data v_data d_z wavel N bf.
Lemma effg_topz : / 2 ^ 200 <= top.
Proof. destruct d_z as [|z t]; [discriminate|]. exact (effg_top z (Hw z (or_introl eq_refl))). Qed.
Lemma effg_residual l D : (forall z, In z d_z -> gauss_loss n bf c_dB (turns K z wavel) * e + ef <= l) ->
  (forall x, In x (concat u_data ++ concat v_data) -> well_inside (grid_step 50 wavel N bf) N x) -> (forall b, In b beam -> resolved b) -> 0 < D ->
  (forall i, (i < 3)%nat -> exists row s t, model_row illum_gauss (eff alpha) ([i_amp; c_dB; q; x0; y0] ++ K) u_data v_data d_z wavel N bf i = Ok row /\ In s row /\ In t row /\ D <= t - s) ->
  exists r r64, ex = Ok r /\ fx = Ok r64 /\ Forall2 (fun x x64 => Rabs (x64 - x) <= 4 * ((5 * l + INR N ^ 2 * / 2 ^ 46) * top) / D + 10 * u) r r64.
Proof. exact (PRound29.residual_api m illum_gauss (illum_gauss64 m mexp msq) (eff alpha) (eff64 mcsc2 mtan alpha) i_amp c_dB q x0 y0 K 50 bf wavel N top loss reach beam u_data v_data d_z M HN effg_topz effg_step effg_lossy effg_both Hw HM Lb Lu Lv Lz l D). Qed.
Lemma effg_outside : (exists x, In x (concat u_data ++ concat v_data) /\ well_outside (grid_step 50 wavel N bf) N x) -> ex = Err ValueError /\ fx = Err ValueError.
Proof. exact (PRound29.residual_outside m illum_gauss (illum_gauss64 m mexp msq) (eff alpha) (eff64 mcsc2 mtan alpha) i_amp c_dB q x0 y0 K 50 bf wavel N top loss reach beam u_data v_data d_z M HN effg_step effg_both Hw HM Lb Lu Lv Lz). Qed.
End Residual.
End Effelsberg.

Section Best.
Variables (e ef alpha : R) (m : maths) (mcsc2 mtan mexp msq : R -> R) (bf wavel : R) (N : nat) (beam : list (list num)) (u_data v_data : list (list R)) (d_z : list R) (M : nat) (E k : R) (cost : list R -> R).
Hypothesis (H1 : unit_roundoff <= e) (H2 : accurate_maths e m) (Hl : accurate_slopes e mcsc2 mtan alpha) (Hg : accurate_gauss e mexp msq) (H3 : accurate_fft ef (m_fft m)) (H4 : 0 <= ef <= / 1000) (H5 : INR N <= 2 ^ 20).
Hypothesis (H6 : exists i j, (i < N)%nat /\ (j < N)%nat /\ block_effelsberg alpha (sample (50 * bf) N i) (sample (50 * bf) N j) <> 0).
Hypothesis (H8 : (0 < M)%nat) (H9 : map (@length num) beam = [M; M; M]) (H10 : map (@length R) u_data = [M; M; M]) (H11 : map (@length R) v_data = [M; M; M]) (H12 : length d_z = 3%nat).
Hypothesis (H13 : forall x, In x (concat u_data ++ concat v_data) -> well_inside (grid_step 50 wavel N bf) N x) (H14 : forall b, In b beam -> resolved b).
Hypothesis (HE : 0 <= E <= 1) (Hk : 0 <= k) (Hc : accurate_cost k (3 * M) cost).
Let ex p := residual_true illum_gauss (eff alpha) p beam u_data v_data d_z wavel N bf.
Let fx p := residual_true64 m (illum_gauss64 m mexp msq) (eff64 mcsc2 mtan alpha) p beam u_data v_data d_z wavel N bf.
Let pred := predictable_eff_gauss e ef alpha bf wavel N u_data v_data d_z E.

Lemma effg_cost p : pred p -> exists r r64, ex p = Ok r /\ fx p = Ok r64 /\ length r = (3 * M)%nat /\ Rabs (cost r64 - sum_sq r) <= INR M * (9 * E + 13 * k).
Proof.
  intros (X & Y & n & i_amp & c_dB & q & x0 & y0 & K & l & D & -> & Hz & Dp & Hd & He).
  destruct (effg_residual e ef alpha X Y m mcsc2 mtan mexp msq n K bf wavel i_amp c_dB q x0 y0 N H1 H2 Hl Hg H3 H4 H5 H6 beam u_data v_data d_z M (fun z Iz => proj1 (Hz z Iz)) H8 H9 H10 H11 H12 l D (fun z Iz => proj2 (Hz z Iz)) H13 H14 Dp Hd) as (r & r64 & R1 & R2 & R3).
  exists r, r64. destruct (residual_shape _ _ _ _ _ _ _ _ _ _ _ R1) as [Lr Br].
  assert (Lc : length r = (3 * M)%nat). { rewrite Lr. destruct beam as [|b1 [|b2 [|b3 [|b4 bs]]]]; try discriminate H9. injection H9 as B1 B2 B3. cbn [concat]. rewrite !app_length. cbn [length]. lia. }
  split; [exact R1|]. split; [exact R2|]. split; [exact Lc|].
  assert (R4 : Forall2 (fun x x64 => Rabs (x64 - x) <= E) r r64). { clear - R3 He. induction R3 as [|x y r t H _ IH]; constructor; [lra|exact IH]. }
  destruct (sumsq_near E r r64 HE Br R4) as [Q1 Q2]. rewrite Lc in Q1, Q2.
  assert (L64 : length r64 = (3 * M)%nat) by (rewrite <- Lc; symmetry; clear - R4; induction R4; cbn; congruence).
  pose proof (Hc r64 L64) as Q3. rewrite mult_INR in Q1, Q2. replace (INR 3) with 3 in Q1, Q2 by (cbn; lra).
  assert (M1 : 1 <= INR M) by (apply (le_INR 1), H8). pose proof (sumsq_pos r64).
  assert (Q4 : k * (sum_sq r64 + 1) <= k * (13 * INR M)) by (apply Rmult_le_compat_l; lra).
  replace (cost r64 - sum_sq r) with ((cost r64 - sum_sq r64) + (sum_sq r64 - sum_sq r)) by ring. eapply Rle_trans; [apply Rabs_triang|].
  replace (INR M * (9 * E + 13 * k)) with (k * (13 * INR M) + 3 * INR M * (3 * E)) by ring. lra.
Qed.

(** Binary64 ranks two vectors as they should be if their sum_sqs differ by more than the error. *)
Lemma effg_order p p' r r' : pred p -> pred p' -> ex p = Ok r -> ex p' = Ok r' -> sum_sq r + 2 * INR M * (9 * E + 13 * k) < sum_sq r' ->
  exists r64 r64', fx p = Ok r64 /\ fx p' = Ok r64' /\ cost r64 < cost r64'.
Proof.
  intros P P' X X' H. destruct (effg_cost p P) as (s & s64 & A1 & A2 & _ & A3), (effg_cost p' P') as (t & t64 & B1 & B2 & _ & B3).
  rewrite X in A1. injection A1 as <-. rewrite X' in B1. injection B1 as <-. exists s64, t64. split; [exact A2|]. split; [exact B2|].
  apply Rabs_le_iff in A3. apply Rabs_le_iff in B3. lra.
Qed.

(** The best of any set of vectors, as binary64 sees it, is nearly the best. *)
Lemma effg_best (cand : list R -> Prop) tol p : (forall q, cand q -> pred q) -> cand p ->
  (forall q r64 s64, cand q -> fx p = Ok r64 -> fx q = Ok s64 -> cost r64 <= cost s64 + tol) ->
  exists r, ex p = Ok r /\ forall q, cand q -> exists s, ex q = Ok s /\ sum_sq r <= sum_sq s + (2 * INR M * (9 * E + 13 * k) + tol).
Proof.
  intros Hp Cp B. destruct (effg_cost p (Hp p Cp)) as (r & r64 & A1 & A2 & _ & A3). exists r. split; [exact A1|]. intros q Cq.
  destruct (effg_cost q (Hp q Cq)) as (t & t64 & B1 & B2 & _ & B3). exists t. split; [exact B1|]. specialize (B q r64 t64 Cq A2 B2).
  apply Rabs_le_iff in A3. apply Rabs_le_iff in B3. lra.
Qed.

(** Data that some vector explains exactly are explained nearly by that best. *)
Lemma effg_explains (cand : list R -> Prop) tol p q s : (forall q, cand q -> pred q) -> cand p ->
  (forall q r64 s64, cand q -> fx p = Ok r64 -> fx q = Ok s64 -> cost r64 <= cost s64 + tol) -> cand q -> ex q = Ok s -> (forall x, In x s -> x = 0) ->
  exists r, ex p = Ok r /\ forall x, In x r -> Rabs x <= sqrt (2 * INR M * (9 * E + 13 * k) + tol).
Proof.
  intros Hp Cp B Cq X Z. destruct (effg_best cand tol p Hp Cp B) as (r & A1 & A2). exists r. split; [exact A1|]. intros x Hx. destruct (A2 q Cq) as (s' & X' & A3). rewrite X in X'. apply Ok_inj in X'. subst s'.
  assert (sum_sq s = 0) as M0. { clear - Z. induction s as [|x s IH]; [reflexivity|]. rewrite sumsq_cons, IH by (intros; apply Z; right; assumption). rewrite (Z x (or_introl eq_refl)). ring. }
  rewrite M0 in A3. pose proof (sumsq_in r x Hx). rewrite <- (sqrt_pow2 (Rabs x) (Rabs_pos x)), pow2_abs. apply sqrt_le_1_alt. lra.
Qed.
End Best.

Section Fit.
Variables (e ef alpha : R) (m : maths) (mcsc2 mtan mexp msq : R -> R) (a : fit_args) (c : config) (orc : oracle) (M m0 : nat) (E k tol : R) (cost : list R -> R).
Hypothesis (Hi : fa_illum a = illum_gauss) (Ht : fa_tel a = eff alpha).
Hypothesis (H1 : unit_roundoff <= e) (H2 : accurate_maths e m) (Hl : accurate_slopes e mcsc2 mtan alpha) (Hg : accurate_gauss e mexp msq) (H3 : accurate_fft ef (m_fft m)) (H4 : 0 <= ef <= / 1000) (H5 : INR (fa_resolution a) <= 2 ^ 20).
Hypothesis (H6 : exists i j, (i < fa_resolution a)%nat /\ (j < fa_resolution a)%nat /\ block_effelsberg alpha (sample (50 * fa_box_factor a) (fa_resolution a) i) (sample (50 * fa_box_factor a) (fa_resolution a) j) <> 0).
Hypothesis (H8 : (0 < M)%nat) (H9 : map (@length num) (fa_beam a) = [M; M; M]) (H10 : map (@length R) (fa_u a) = [M; M; M]) (H11 : map (@length R) (fa_v a) = [M; M; M]) (H12 : length (fa_d_z a) = 3%nat).
Hypothesis (H13 : forall x, In x (concat (fa_u a) ++ concat (fa_v a)) -> well_inside (grid_step 50 (fa_wavel a) (fa_resolution a) (fa_box_factor a)) (fa_resolution a) x) (H14 : forall b, In b (fa_beam a) -> resolved b).
Hypothesis (HE : 0 <= E <= 1) (Hk : 0 <= k) (Hc : accurate_cost k (3 * M) cost).
Hypothesis (Hv : valid_config c) (Hm : (1 <= m0)%nat).
Hypothesis (Hp : forall n p, (m0 <= n <= fa_order_max a)%nat -> allowed c n p -> predictable_eff_gauss e ef alpha (fa_box_factor a) (fa_wavel a) (fa_resolution a) (fa_u a) (fa_v a) (fa_d_z a) E p).
Hypothesis Hb : cheapest_by m (illum_gauss64 m mexp msq) cost (eff64 mcsc2 mtan alpha) orc a c m0 tol.

Lemma effg_cheapest : best_from orc a c m0 (2 * INR M * (9 * E + 13 * k) + tol).
Proof.
  intros n start out Hn Ls A. destruct (Hb n start out Hn Ls A) as (F1 & F2 & F3). split; [exact F1|]. split; [exact F2|]. intros x r Fx X.
  assert (FA : forall y, feasible c n y -> exists q, allowed c n q /\ params_complete (cf_fixed c) (cf_excluded c) (coeffs n) y = Ok q).
  { intros y Fy. destruct (params_complete (cf_fixed c) (cf_excluded c) (coeffs n) y) as [q|] eqn:Q.
    - exists q. split; [|reflexivity]. apply allowed_iff; [exact Hv|lia|]. exists y. split; assumption.
    - exfalso. destruct (Hv) as (_ & Lf & _ & _ & ex & Ee & Es & Eb).
      destruct (PBest.complete_always (cf_fixed c) ex n y Lf Es Eb ltac:(lia) (PBest.feasible_shape c n y ex Hv ltac:(lia) Ee Es Eb Fy)) as [q Q']. rewrite <- Ee, Q in Q'. discriminate. }
  destruct (FA _ F1) as (p & Ap & Cp), (FA _ Fx) as (q & Aq & Cq).
  unfold misfit, residual in F2, X. rewrite Cp in F2. rewrite Cq in X. cbn [bind] in F2, X. rewrite Hi, Ht in F2, X.
  assert (B : forall z r64 s64, p = z \/ q = z -> residual_true64 m (illum_gauss64 m mexp msq) (eff64 mcsc2 mtan alpha) p (fa_beam a) (fa_u a) (fa_v a) (fa_d_z a) (fa_wavel a) (fa_resolution a) (fa_box_factor a) = Ok r64 ->
    residual_true64 m (illum_gauss64 m mexp msq) (eff64 mcsc2 mtan alpha) z (fa_beam a) (fa_u a) (fa_v a) (fa_d_z a) (fa_wavel a) (fa_resolution a) (fa_box_factor a) = Ok s64 -> cost r64 <= cost s64 + tol).
  { intros z r64 s64 [<-|<-] R1 R2.
    - apply (F3 (lo_x out)); [exact F1| |]; unfold misfit_by, residual64; rewrite Cp; assumption.
    - apply (F3 x); [exact Fx| |]; unfold misfit_by, residual64; rewrite ?Cp, ?Cq; assumption. }
  assert (PP : forall z, p = z \/ q = z -> predictable_eff_gauss e ef alpha (fa_box_factor a) (fa_wavel a) (fa_resolution a) (fa_u a) (fa_v a) (fa_d_z a) E z) by (intros z [<-|<-]; apply (Hp n); assumption).
  destruct (effg_best e ef alpha m mcsc2 mtan mexp msq (fa_box_factor a) (fa_wavel a) (fa_resolution a) (fa_beam a) (fa_u a) (fa_v a) (fa_d_z a) M E k cost H1 H2 Hl Hg H3 H4 H5 H6 H8 H9 H10 H11 H12 H13 H14 HE Hk Hc (fun z => p = z \/ q = z) tol p PP (or_introl eq_refl) B) as (r1 & R1 & R2).
  destruct (R2 q (or_intror eq_refl)) as (s & R3 & R4). rewrite F2 in R1. apply Ok_inj in R1. rewrite X in R3. apply Ok_inj in R3. subst r1 s. exact R4.
Qed.
End Fit.
