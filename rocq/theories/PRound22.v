(** Rounding errors of the gaussian taper. *)
From Coq Require Import Reals List Lra Lia ZArith.
From Verif Require Import PyBase PyLib Sums Num MMath MAperture MTel MRad SFloat MFloat MFloat2 MFloat3 MFloat4 MFloat7 SRound SRound2 SRound3 SRound6 POrder64 PRound PRound2 PRound3 PRound4 PRound5 PRound8 PRound9 PRound10 PRound11 PSim.
From Coquelicot Require Import Complex.
Import ListNotations.
Open Scope R_scope.

Lemma exp_near z z' a b : 0 <= z -> 0 <= z' -> Rabs (z' - z) <= a * z + b -> 0 <= a <= / 4 -> 0 <= b <= / 10 -> Rabs (exp (- z') - exp (- z)) <= 3 * a + 12 / 10 * b.
Proof.
  intros Z Z' H A B. set (d := z' - z). replace (exp (- z') - exp (- z)) with (exp (- z) * (exp (- d) - 1)) by (rewrite Rmult_minus_distr_l, <- exp_plus; unfold d; f_equal; [f_equal; ring|ring]). fold d in H. apply Rabs_le_iff in H as H'.
  (* |exp(-d) - 1| <= |d| exp(|d|) *)
  assert (Q : Rabs (exp (- d) - 1) <= Rabs d * exp (a * z + b)).
  { assert (P1 : 1 <= exp (a * z + b)) by (pose proof (exp_ineq1_le (a * z + b)); pose proof (Rmult_le_pos a z ltac:(lra) Z); lra). destruct (Rle_dec 0 d) as [D|D].
    - rewrite Rabs_left1 by (pose proof (exp_le1 (- d) ltac:(lra)); lra). rewrite (Rabs_pos_eq d) by exact D. pose proof (exp_ineq1_le (- d)). nra.
    - rewrite Rabs_pos_eq. 2:{ pose proof (exp_ineq1_le (- d)). lra. } rewrite (Rabs_left d) by lra. pose proof (exp_ineq1_le d) as X. assert (E : exp (- d) * exp d = 1) by (rewrite <- exp_plus, Rplus_opp_l; apply exp_0). pose proof (exp_pos (- d)) as Y.
      assert (exp (- d) - 1 <= - d * exp (- d)) by nra. assert (exp (- d) <= exp (a * z + b)). { destruct (Req_dec (- d) (a * z + b)) as [->|Ne]; [lra|left; apply exp_increasing; lra]. } assert (- d * exp (- d) <= - d * exp (a * z + b)) by (apply Rmult_le_compat_l; lra). lra. }
  rewrite Rabs_mult, (Rabs_pos_eq (exp (- z))) by (left; apply exp_pos). pose proof (exp_pos (- z)) as P. eapply Rle_trans; [apply Rmult_le_compat_l; [lra|exact Q]|].
  assert (G : exp (- z) * exp (a * z + b) <= exp (- (z / 2)) * (12 / 10)).
  { assert (Eb : exp b <= 12 / 10). { pose proof (exp_ineq1_le (- b)) as X. assert (E : exp b * exp (- b) = 1) by (rewrite <- exp_plus, Rplus_opp_r; apply exp_0). pose proof (exp_pos b). nra. }
    assert (exp (- z) * exp (a * z + b) <= exp (- (z / 2)) * exp b). { rewrite <- !exp_plus. assert (M : - z + (a * z + b) <= - (z / 2) + b) by nra. destruct M as [M|M]; [left; apply exp_increasing, M|right; rewrite M; reflexivity]. }
    pose proof (exp_pos (- (z / 2))). nra. }
  replace (exp (- z) * (Rabs d * exp (a * z + b))) with (Rabs d * (exp (- z) * exp (a * z + b))) by ring.
  assert (G2 : z * exp (- (z / 2)) <= 2 /\ exp (- (z / 2)) <= 1). { split; [|apply exp_le1; lra]. pose proof (exp_ineq1_le (z / 2)) as X. assert (E : exp (- (z / 2)) * exp (z / 2) = 1) by (rewrite <- exp_plus, Rplus_opp_l; apply exp_0). pose proof (exp_pos (- (z / 2))). nra. }
  pose proof (exp_pos (- (z / 2))) as P2. set (x := exp (- (z / 2))) in *. apply Rle_trans with ((a * z + b) * (x * (12 / 10))).
  - apply Rmult_le_compat; try assumption; [apply Rabs_pos|]. apply Rmult_le_pos; [lra|left; apply exp_pos].
  - replace ((a * z + b) * (x * (12 / 10))) with (12 / 10 * a * (z * x) + 12 / 10 * b * x) by ring. assert (12 / 10 * a * (z * x) <= 12 / 10 * a * 2) by (apply Rmult_le_compat_l; lra). assert (12 / 10 * b * x <= 12 / 10 * b * 1) by (apply Rmult_le_compat_l; lra). lra.
Qed.
Lemma sqrt_near e k a b : 0 < b -> 0 <= a -> Rabs (a - b) <= k * e * b -> Rabs (sqrt a - sqrt b) <= k * e * sqrt b.
Proof.
  intros B A H. pose proof (sqrt_lt_R0 b B) as Sb. pose proof (sqrt_pos a) as Sa. assert (E : a - b = (sqrt a - sqrt b) * (sqrt a + sqrt b)) by (rewrite <- (sqrt_sqrt a A) at 1; rewrite <- (sqrt_sqrt b ltac:(lra)) at 1; ring).
  rewrite E, Rabs_mult, (Rabs_pos_eq (sqrt a + sqrt b)) in H by lra. rewrite <- (sqrt_sqrt b ltac:(lra)) in H at 3. pose proof (Rabs_pos (sqrt a - sqrt b)). apply Rmult_le_reg_r with (sqrt b); [exact Sb|]. nra.
Qed.
Lemma taper_range c : -100 <= c <= 0 -> / 100000 <= taper c <= 1.
Proof.
  intros H. unfold taper. pose proof ln10 as L. split.
  - replace (/ 100000) with (Rpower 10 (-5)). 2:{ replace (-5) with (- INR 5) by (cbn; lra). rewrite Rpower_Ropp. f_equal. rewrite Rpower_pow by lra. lra. } destruct (Req_dec (c / 20) (-5)) as [->|N]; [lra|]. left. apply Rpower_lt; lra.
  - unfold Rpower. apply exp_le1. nra.
Qed.

Section Near.
Variable e : R.
Hypothesis Ue : u <= e.
Hypothesis E1 : e <= / 1000.
Variables (m : maths) (mexp msq : R -> R).
Hypothesis Hm : accurate_maths e m.
Hypothesis Hg : accurate_gauss e mexp msq.
Variables (r h x y x64 y64 : R).
Hypothesis Hr : / 2 ^ 100 <= r.
Hypothesis H1 : 2 <= h.
Hypothesis He : h * e <= / 10000.
Hypothesis Dx : Rabs (x64 - x) <= h * e * r.
Hypothesis Dy : Rabs (y64 - y) <= h * e * r.
Variables (I : list R) (i_amp c_dB x0 y0 : R).
Hypothesis I1 : unpack2 (firstn 2 I) = Ok (i_amp, c_dB).
Hypothesis I2 : unpack2 (last2 I) = Ok (x0, y0).
Let s := taper c_dB.
Hypothesis Hp : / 2 ^ 100 <= gauss_peak i_amp c_dB.
Hypothesis Hc : -100 <= c_dB <= 0.
Hypothesis Hh : / s ^ 2 * h * e <= / 10000.
Hypothesis Lx : Rabs (x - x0) <= 2 * r.
Hypothesis Ly : Rabs (y - y0) <= 2 * r.

Ltac nfl H N := match type of H with near _ ?k ?w ?x ?y => assert (N : near e (k + 6 / 5) w (fl x) y); [apply near_fl; [exact Ue|exact E1|try lra|try lra|exact H]|] end.

Ltac nmul H H' N := match type of H with near _ ?k ?w ?x ?y => match type of H' with near _ ?k' ?w' ?x' ?y' => assert (N : near e (k + 11 / 10 * k') (w * w') (x * x') (y * y')); [apply (near_mul e Ue k k' w w' x y x' y'); [try lra|try lra|exact H|exact H']|] end end.

Let t := / s.
Lemma t_facts : 0 < s <= 1 /\ 1 <= t /\ t * s = 1 /\ t * t = / s ^ 2 /\ t * e <= / 20000 /\ t * t * h * e <= / 10000 /\ t <= t * t.
Proof.
  pose proof (taper_range c_dB Hc) as S. fold s in S. pose proof (e_pos e Ue) as P. assert (S0 : 0 < s) by lra. assert (T : t * s = 1) by (unfold t; apply Rinv_l; lra). assert (T1 : 1 <= t) by (unfold t; rewrite <- Rinv_1; apply Rinv_le_contravar; lra).
  assert (T2 : t * t = / s ^ 2) by (unfold t; field; lra). assert (T3 : t <= t * t) by nra. rewrite <- T2 in Hh. split; [lra|]. split; [exact T1|]. split; [exact T|]. split; [exact T2|]. split; [|split; [exact Hh|exact T3]].
  assert (2 * (t * e) <= t * t * h * e); [|lra]. replace (t * t * h * e) with (h * (t * t * e)) by ring. assert (t * e <= t * t * e) by (apply Rmult_le_compat_r; lra). assert (0 < t * e) by (apply Rmult_lt_0_compat; lra). apply Rmult_le_compat; lra.
Qed.
Lemma sigma_near : near e (19 * t) s (m_pow10 m (fl (c_dB / 20))) s.
Proof.
  pose proof (taper_range c_dB Hc) as S. fold s in S. destruct t_facts as (_ & T1 & T & _). pose proof (e_pos e Ue) as P. destruct Hm as (_ & _ & _ & H10 & _). pose proof ln10 as L10. split; [|rewrite Rabs_pos_eq; lra].
  replace (19 * t * e * s) with (19 * e) by (transitivity (19 * e * (t * s)); [rewrite T; ring|ring]).
  unfold s, taper. set (v := c_dB / 20). assert (Hv : -5 <= v <= 0) by (unfold v; lra). pose proof tiny_pos. pose proof tiny_1. assert (Fs : Rabs (fl v - v) <= 6 * e). { eapply Rle_trans; [apply (fl_err e v Ue)|]. rewrite Rabs_left1 by lra. nra. }
  assert (Fs0 : fl v <= 0) by (rewrite <- PRound3.fl_0; apply fl_le; lra). pose proof (H10 (fl v) Fs0) as A1. pose proof (exp_lip (fl v * ln 10) (v * ln 10) ltac:(nra) ltac:(nra)) as A2. rewrite <- Rmult_minus_distr_r, Rabs_mult, (Rabs_pos_eq (ln 10)) in A2 by lra. unfold Rpower in *.
  replace (m_pow10 m (fl v) - exp (v * ln 10)) with ((m_pow10 m (fl v) - exp (fl v * ln 10)) + (exp (fl v * ln 10) - exp (v * ln 10))) by ring. eapply Rle_trans; [apply Rabs_triang|]. pose proof (Rabs_pos (fl v - v)). nra.
Qed.
Let s64 := m_pow10 m (fl (c_dB / 20)).
Lemma den_near : near e (45 * t) (2 * (s * r) ^ 2) (fl (2 * square64 (fl (s64 * r)))) (2 * (s * r) ^ 2).
Proof.
  pose proof sigma_near as Ns. fold s64 in Ns. pose proof (taper_range c_dB Hc) as S. fold s in S. destruct t_facts as (_ & T1 & T & _ & Te & _). pose proof (e_pos e Ue) as P. pose proof (r_pos r Hr) as R0. destruct small_300 as [T3 _]. pose proof tiny_pos as Tp. assert (P0 : 0 < / 2 ^ 100) by (apply Rinv_0_lt_compat, pow_lt; lra).
  assert (Sr : / 2 ^ 120 <= s * r). { apply Rle_trans with (/ 100000 * / 2 ^ 100); [|apply Rmult_le_compat; lra]. replace (2 ^ 120) with (2 ^ 20 * 2 ^ 100) by ring. rewrite Rinv_mult. apply Rmult_le_compat_r; [lra|]. apply Rinv_le_contravar; lra. }
  assert (P1 : 0 < / 2 ^ 120) by (apply Rinv_0_lt_compat, pow_lt; lra). assert (T120 : tiny <= / 2 ^ 120 * / 2 ^ 120). { eapply Rle_trans; [exact T3|]. rewrite <- Rinv_mult, <- pow_add. apply Rinv_le_contravar; [apply pow_lt; lra|apply Rle_pow; [lra|lia]]. }
  assert (Q1 : / 2 ^ 120 * / 2 ^ 120 <= s * r * (s * r)) by (apply Rmult_le_compat; lra). assert (Q2 : tiny <= s * r). { apply Rle_trans with (/ 2 ^ 120); [|exact Sr]. eapply Rle_trans; [exact T3|]. apply Rinv_le_contravar; [apply pow_lt; lra|apply Rle_pow; [lra|lia]]. }
  pose proof (near_scale_r e _ _ _ _ r Ns) as N1. rewrite (Rabs_pos_eq r) in N1 by lra. nfl N1 N2.
  nmul N2 N2 N3. nfl N3 N4. fold (square64 (fl (s64 * r))) in N4. pose proof (near_scale e _ _ _ _ 2 N4) as N5. rewrite (Rabs_pos_eq 2) in N5 by lra. nfl N5 N6.
  replace (2 * (s * r) ^ 2) with (2 * (s * r * (s * r))) by ring. eapply near_le; [exact Ue| |exact N6]. lra.
Qed.
Lemma num_near : near e (105 / 100 * h + 5) (8 * r ^ 2) (fl (square64 (fl (x64 - x0)) + square64 (fl (y64 - y0)))) ((x - x0) ^ 2 + (y - y0) ^ 2).
Proof.
  pose proof (e_pos e Ue) as P. pose proof (r_pos r Hr) as R0. destruct small_300 as [T3 _]. pose proof tiny_pos as Tp. assert (P0 : 0 < / 2 ^ 100) by (apply Rinv_0_lt_compat, pow_lt; lra).
  assert (E2 : e <= / 20000) by nra. assert (Rt : / 2 ^ 100 * / 2 ^ 100 <= r * r) by (apply Rmult_le_compat; lra). assert (Tt : tiny <= r * r). { eapply Rle_trans; [|exact Rt]. eapply Rle_trans; [exact T3|]. rewrite <- Rinv_mult, <- pow_add. apply Rinv_le_contravar; [apply pow_lt; lra|apply Rle_pow; [lra|lia]]. }
  assert (D1 : Rabs (x64 - x) <= h / 2 * e * (2 * r)) by lra. assert (D2 : Rabs (y64 - y) <= h / 2 * e * (2 * r)) by lra.
  assert (Hf : h / 2 * e <= / 10000) by (assert (0 < h * e) by (apply Rmult_lt_0_compat; lra); lra).
  assert (Nx : near e (h / 2 + 6 / 5) (2 * r) (fl (x64 - x0)) (x - x0)) by (split; [apply (shift_near e Ue E1 (2 * r) (h / 2) ltac:(lra) Hf); assumption|exact Lx]).
  assert (Ny : near e (h / 2 + 6 / 5) (2 * r) (fl (y64 - y0)) (y - y0)) by (split; [apply (shift_near e Ue E1 (2 * r) (h / 2) ltac:(lra) Hf); assumption|exact Ly]).
  nmul Nx Nx Qx. nfl Qx Qx'. nmul Ny Ny Qy. nfl Qy Qy'.
  pose proof (near_add e _ _ _ _ _ _ _ Qx' Qy') as Q. nfl Q Q'. fold (square64 (fl (x64 - x0))) in Q'. fold (square64 (fl (y64 - y0))) in Q'.
  replace ((x - x0) ^ 2 + (y - y0) ^ 2) with ((x - x0) * (x - x0) + (y - y0) * (y - y0)) by ring. replace (8 * r ^ 2) with (2 * r * (2 * r) + 2 * r * (2 * r)) by ring. eapply near_le; [exact Ue| |exact Q']. lra.
Qed.
Lemma amp_near : near e (54 * t) (gauss_peak i_amp c_dB) (fl (i_amp * fl (sqrt (fl (fl (2 * fl PI) * msq s64))))) (i_amp * sqrt (2 * PI * s ^ 2)).
Proof.
  pose proof sigma_near as Ns. fold s64 in Ns. pose proof (taper_range c_dB Hc) as S. fold s in S. destruct t_facts as (_ & T1 & T & _ & Te & _). pose proof (e_pos e Ue) as P. destruct small_300 as [T3 _]. pose proof tiny_pos as Tp. pose proof tiny_1 as Tl. pose proof PI_RGT_0 as Pi0. assert (P1 : 1 <= PI) by (pose proof PI2_1; lra).
  assert (T20 : tiny <= / 2 ^ 40) by (eapply Rle_trans; [exact T3|]; apply Rinv_le_contravar; [apply pow_lt; lra|apply Rle_pow; [lra|lia]]). assert (S2 : / 2 ^ 40 <= s * s) by (apply Rle_trans with (/ 100000 * / 100000); [lra|apply Rmult_le_compat; lra]).
  assert (Np : near e 0 PI PI PI) by (apply near_refl; rewrite Rabs_pos_eq; lra). nfl Np Np1. pose proof (near_scale e _ _ _ _ 2 Np1) as Np2. rewrite (Rabs_pos_eq 2) in Np2 by lra. nfl Np2 Np3.
  nmul Ns Ns Nq.
  assert (Rs : / 2 ^ 100 <= s64 <= 2). { destruct Ns as [Ns _]. apply Rabs_le_iff in Ns. assert (19 * t * e * s <= / 1000 * s) by (apply Rmult_le_compat_r; lra). assert (/ 2 ^ 100 <= / 1000000) by (apply Rinv_le_contravar; [lra|]; apply Rle_trans with (2 ^ 20); [lra|apply Rle_pow; [lra|lia]]). lra. }
  assert (Nm : near e (19 * t + 11 / 10 * (19 * t) + 11 / 10) (s * s) (msq s64) (s * s)).
  { destruct Hg as [_ Hq]. specialize (Hq s64 Rs). destruct Nq as [Q1 Q2]. split; [|exact Q2]. replace (msq s64 - s * s) with ((msq s64 - s64 ^ 2) + (s64 * s64 - s * s)) by ring. eapply Rle_trans; [apply Rabs_triang|]. apply Rabs_le_iff in Q1 as Q1'.
    assert ((19 * t + 11 / 10 * (19 * t)) * e * (s * s) <= / 100 * (s * s)) by (apply Rmult_le_compat_r; lra). assert (s64 ^ 2 <= 11 / 10 * (s * s)) by (replace (s64 ^ 2) with (s64 * s64) by ring; lra). assert (e * s64 ^ 2 <= e * (11 / 10 * (s * s))) by (apply Rmult_le_compat_l; lra). lra. }
  nmul Np3 Nm Nb. assert (B1 : / 2 ^ 40 <= 2 * PI * (s * s)) by nra. nfl Nb Nb1. set (b := 2 * PI * (s * s)) in *. set (b64 := fl (fl (2 * fl PI) * msq s64)) in *.
  assert (B0 : 0 < b). { assert (0 < / 2 ^ 40) by (apply Rinv_0_lt_compat, pow_lt; lra). lra. }
  assert (Nb2 : near e (50 * t) b b64 b) by (eapply near_le; [exact Ue| |exact Nb1]; lra). clear Nb1. destruct Nb2 as [Nb1 _]. assert (Bp : 0 <= b64). { apply Rabs_le_iff in Nb1. assert (50 * t * e * b <= / 10 * b) by (apply Rmult_le_compat_r; lra). lra. }
  pose proof (sqrt_near e (50 * t) b64 b B0 Bp Nb1) as Sq. assert (Tb : tiny <= sqrt b). { rewrite <- (sqrt_pow2 tiny) by lra. apply sqrt_le_1_alt. nra. } pose proof (sqrt_pos b) as Sb.
  assert (N1 : near e (50 * t) (sqrt b) (sqrt b64) (sqrt b)) by (split; [exact Sq|rewrite Rabs_pos_eq; lra]). nfl N1 N2. pose proof (near_scale e _ _ _ _ i_amp N2) as N3.
  assert (Eb : Rabs i_amp * sqrt b = gauss_peak i_amp c_dB) by (unfold gauss_peak, b; fold s; do 2 f_equal; ring). replace (2 * PI * s ^ 2) with b by (unfold b; ring). rewrite Eb in N3.
  assert (Tg : tiny <= gauss_peak i_amp c_dB). { apply Rle_trans with (/ 2 ^ 100); [|exact Hp]. eapply Rle_trans; [exact T3|]. apply Rinv_le_contravar; [apply pow_lt; lra|apply Rle_pow; [lra|lia]]. }
  nfl N3 N4. eapply near_le; [exact Ue| |exact N4]. lra.
Qed.
(** The exponential. *)
Lemma gauss_factor : let z := ((x - x0) ^ 2 + (y - y0) ^ 2) / (2 * (s * r) ^ 2) in
  near e (1 + t * t * (210 + 6 * h)) 1 (mexp (fl (- fl (square64 (fl (x64 - x0)) + square64 (fl (y64 - y0))) / fl (2 * square64 (fl (s64 * r)))))) (exp (- z)).
Proof.
  intros z. pose proof den_near as [Nd _]. pose proof num_near as [Nn _]. pose proof (taper_range c_dB Hc) as S. fold s in S. destruct t_facts as (_ & T1 & T & T2 & Te & Th & T3). pose proof (e_pos e Ue) as P. pose proof (r_pos r Hr) as R0. pose proof tiny_pos as Tp. pose proof tiny_1 as Tl.
  set (D := 2 * (s * r) ^ 2) in *. set (D64 := fl (2 * square64 (fl (s64 * r)))) in *. set (M := (x - x0) ^ 2 + (y - y0) ^ 2) in *. set (M64 := fl (square64 (fl (x64 - x0)) + square64 (fl (y64 - y0)))) in *.
  assert (D0 : 0 < D) by (unfold D; assert (0 < s * r) by (apply Rmult_lt_0_compat; lra); nra). assert (M0 : 0 <= M) by (unfold M; pose proof (pow2_ge_0 (x - x0)); pose proof (pow2_ge_0 (y - y0)); lra).
  assert (M640 : 0 <= M64) by (apply fl_pos, Rplus_le_le_0_compat; apply fl_pos, Rle_0_sqr). assert (Z0 : 0 <= z) by (apply Rmult_le_pos; [exact M0|left; apply Rinv_0_lt_compat, D0]).
  assert (Ed : 45 * t * e * D <= / 400 * D) by (apply Rmult_le_compat_r; lra). apply Rabs_le_iff in Nd as Nd'. assert (D64p : 99 / 100 * D <= D64) by lra. assert (D640 : 0 < D64) by lra.
  set (z1 := M64 / D64). assert (Z1 : 0 <= z1) by (apply Rmult_le_pos; [exact M640|left; apply Rinv_0_lt_compat, D640]).
  assert (ID : / D64 <= 102 / 100 * / D). { apply Rmult_le_reg_r with D64; [exact D640|]. rewrite Rinv_l by lra. apply Rmult_le_reg_r with D; [exact D0|]. replace (102 / 100 * / D * D64 * D) with (102 / 100 * D64) by (field; lra). lra. } pose proof (Rinv_0_lt_compat D64 D640) as ID0. pose proof (Rinv_0_lt_compat D D0) as ID1.
  assert (RD : 8 * r ^ 2 * / D = 4 * (t * t)). { rewrite T2. unfold D. field. split; nra. }
  set (kN := 105 / 100 * h + 5) in *. assert (KN : 0 <= kN * e) by (unfold kN; apply Rmult_le_pos; lra).
  assert (C1 : Rabs (z1 - z) <= 46 * t * e * z + 41 / 10 * kN * e * (t * t)).
  { replace (z1 - z) with ((M64 - M) * / D64 + z * ((D - D64) * / D64)) by (unfold z1, z; field; lra). eapply Rle_trans; [apply Rabs_triang|]. rewrite !Rabs_mult, (Rabs_pos_eq (/ D64)), (Rabs_pos_eq z) by lra. rewrite (Rabs_minus_sym D D64).
    assert (G1 : Rabs (M64 - M) * / D64 <= kN * e * (8 * r ^ 2) * (102 / 100 * / D)) by (apply Rmult_le_compat; [apply Rabs_pos|lra|exact Nn|exact ID]). replace (kN * e * (8 * r ^ 2) * (102 / 100 * / D)) with (102 / 100 * (kN * e) * (8 * r ^ 2 * / D)) in G1 by ring. rewrite RD in G1.
    assert (G2 : Rabs (D64 - D) * / D64 <= 45 * t * e * D * (102 / 100 * / D)) by (apply Rmult_le_compat; [apply Rabs_pos|lra|exact Nd|exact ID]). replace (45 * t * e * D * (102 / 100 * / D)) with (459 / 10 * (t * e)) in G2 by (field; lra).
    assert (G3 : z * (Rabs (D64 - D) * / D64) <= z * (459 / 10 * (t * e))) by (apply Rmult_le_compat_l; assumption). assert (0 <= z * (t * e)) by (apply Rmult_le_pos; [exact Z0|apply Rmult_le_pos; lra]). assert (0 <= kN * e * (t * t)) by (apply Rmult_le_pos; [exact KN|nra]). lra. }
  assert (Kt : kN * e * (t * t) <= 4 / 10000). { unfold kN. replace ((105 / 100 * h + 5) * e * (t * t)) with (105 / 100 * (t * t * h * e) + 5 * (t * t * e)) by ring. assert (2 * (t * t * e) <= t * t * h * e) by (replace (t * t * h * e) with (h * (t * t * e)) by ring; apply Rmult_le_compat_r; [apply Rmult_le_pos; nra|exact H1]). lra. }
  set (z2 := fl (- M64 / D64)). assert (Ez : - M64 / D64 = - z1) by (unfold z1; field; lra). pose proof (fl_err e (- M64 / D64) Ue) as Fz. fold z2 in Fz. rewrite Ez, Rabs_Ropp, (Rabs_pos_eq z1) in Fz by exact Z1.
  assert (Z2 : z2 <= 0) by (unfold z2; rewrite <- PRound3.fl_0; apply fl_le; rewrite Ez; lra).
  assert (C2 : Rabs (- z2 - z) <= 48 * t * e * z + (42 / 10 * kN + 1) * e * (t * t)).
  { apply Rabs_le_iff in C1 as C1'. replace (- z2 - z) with (- (z2 - - z1) + (z1 - z)) by ring. eapply Rle_trans; [apply Rabs_triang|]. rewrite Rabs_Ropp. assert (B1 : 46 * t * e * z <= / 100 * z) by (apply Rmult_le_compat_r; lra). assert (Bz : z1 + tiny / 100 <= 102 / 100 * z + 3 / 100) by lra.
    assert (e * (z1 + tiny / 100) <= e * (102 / 100 * z + 3 / 100)) by (apply Rmult_le_compat_l; lra). assert (e <= t * e) by nra. assert (e <= t * t * e) by nra. assert (e * z <= t * e * z) by (apply Rmult_le_compat_r; lra). assert (0 <= kN * e * (t * t)) by (apply Rmult_le_pos; [exact KN|nra]). lra. }
  assert (B2 : (42 / 10 * kN + 1) * e * (t * t) <= / 100). { assert (e * (t * t) <= / 10000); [|lra]. assert (2 * (t * t * e) <= t * t * h * e) by (replace (t * t * h * e) with (h * (t * t * e)) by ring; apply Rmult_le_compat_r; [apply Rmult_le_pos; nra|exact H1]). lra. }
  assert (tte : 0 <= e * (t * t)) by (apply Rmult_le_pos; nra). assert (kte : 0 <= kN * e * (t * t)) by (apply Rmult_le_pos; [exact KN|nra]).
  pose proof (exp_near z (- z2) (48 * t * e) ((42 / 10 * kN + 1) * e * (t * t)) Z0 ltac:(lra) C2 ltac:(split; [apply Rmult_le_pos; lra|lra]) ltac:(split; lra)) as X. rewrite Ropp_involutive in X.
  split; [|rewrite Rabs_pos_eq by (left; apply exp_pos); apply exp_le1; lra]. destruct Hg as [Hx _]. specialize (Hx z2 Z2). replace (mexp z2 - exp (- z)) with ((mexp z2 - exp z2) + (exp z2 - exp (- z))) by ring. eapply Rle_trans; [apply Rabs_triang|].
  assert (Tt : t * e <= t * t * e) by (apply Rmult_le_compat_r; lra). unfold kN in X. assert (0 <= h * (e * (t * t))) by (apply Rmult_le_pos; lra). lra.
Qed.
Lemma gauss_near : exists Ea Ea64, illum_gauss I r = Ok Ea /\ illum_gauss64 m mexp msq I r = Ok Ea64 /\ near e (t * t * (300 + 66 / 10 * h)) (gauss_peak i_amp c_dB) (Ea64 x64 y64) (Ea x y).
Proof.
  pose proof amp_near as Na. pose proof gauss_factor as Ng. cbv zeta in Ng. destruct t_facts as (_ & T1 & T & T2 & Te & Th & T3). pose proof (e_pos e Ue) as P.
  eexists. eexists. split; [unfold illum_gauss; rewrite I1; cbn [bind]; rewrite I2; cbn [bind]; reflexivity|]. split; [unfold illum_gauss64; rewrite I1; cbn [bind]; rewrite I2; cbn [bind]; reflexivity|]. cbv beta zeta. fold s64. change (Rpower 10 (c_dB / 20)) with s.
  assert (Tg : tiny <= gauss_peak i_amp c_dB). { destruct small_300 as [T30 _]. apply Rle_trans with (/ 2 ^ 100); [|exact Hp]. eapply Rle_trans; [exact T30|]. apply Rinv_le_contravar; [apply pow_lt; lra|apply Rle_pow; [lra|lia]]. }
  assert (Q0 : 0 <= t * t * (210 + 6 * h)) by (apply Rmult_le_pos; nra).
  nmul Na Ng Nm. rewrite Rmult_1_r in Nm.
  assert (B : t * t * (210 + 6 * h) * e <= / 50). { replace (t * t * (210 + 6 * h) * e) with (6 * (t * t * h * e) + 210 * (t * t * e)) by ring. assert (2 * (t * t * e) <= t * t * h * e) by (replace (t * t * h * e) with (h * (t * t * e)) by ring; apply Rmult_le_compat_r; [apply Rmult_le_pos; nra|exact H1]). lra. }
  nfl Nm Nf. replace (- ((x - x0) ^ 2 + (y - y0) ^ 2) / (2 * (s * r) ^ 2)) with (- (((x - x0) ^ 2 + (y - y0) ^ 2) / (2 * (s * r) ^ 2))) by (unfold Rdiv; ring). eapply near_le; [exact Ue| |exact Nf]. assert (1 <= t * t) by nra. nra.
Qed.
End Near.
