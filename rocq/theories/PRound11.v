(** Rounding errors of the parabolic taper, of the mask and of the aperture field at one pixel. *)
From Coq Require Import Reals List Lra Lia ZArith.
From Verif Require Import PyBase PyLib Sums Num MZernike SZernike MMath MAperture MTel MRad SFloat MFloat MFloat2 MFloat3 MFloat4 SRound SRound2 SRound3 PPolar PWave PPhase PPhase2 POrder64 PRound PRound2 PRound3 PRound4 PRound5 PRound8 PRound9 PRound10 PSim.
From Coquelicot Require Import Complex.
Import ListNotations.
Open Scope R_scope.

(** ** Powers *)
Lemma exp_le1 x : x <= 0 -> exp x <= 1.
Proof. intros [M|M]; [left; rewrite <- exp_0; apply exp_increasing, M|right; rewrite M; apply exp_0]. Qed.
Lemma npow_unit b q : 0 <= b <= 1 -> 1 <= q -> exists p, npow b q = Fin p /\ 0 <= p <= b /\ (0 < b -> p = Rpower b q) /\ (b = 0 -> p = 0).
Proof.
  intros Hb Hq. unfold npow. destruct (Rlt_dec 0 b) as [L|L].
  - exists (Rpower b q). split; [reflexivity|]. split; [|split; [reflexivity|lra]]. split; [unfold Rpower; left; apply exp_pos|]. assert (E : exp (ln b) = b) by (apply exp_ln, L).
    assert (N : ln b <= 0). { destruct (Req_dec b 1) as [->|Hn]; [rewrite ln_1; lra|]. rewrite <- ln_1. left. apply ln_increasing; lra. }
    unfold Rpower. rewrite <- E at 2. assert (M : q * ln b <= ln b) by nra. destruct M as [M|M]; [left; apply exp_increasing, M|right; rewrite M; reflexivity].
  - assert (b = 0) as -> by lra. destruct (Req_EM_T 0 0) as [_|n]; [|contradiction]. destruct (Rlt_dec 0 q) as [_|n]; [|lra]. exists 0. repeat split; lra.
Qed.
Lemma Rpower_lip a b q : 0 < a -> a < b -> b <= 1 -> 1 <= q -> 0 <= Rpower b q - Rpower a q <= q * (b - a).
Proof.
  intros A B C Q. destruct (MVT_cor2 (fun x => Rpower x q) (fun x => q * Rpower x (q - 1)) a b B) as (c & E & Hc).
  { intros c Hc. apply derivable_pt_lim_power. lra. }
  cbv beta in E. rewrite E. assert (P : 0 <= Rpower c (q - 1) <= 1).
  { split; [unfold Rpower; left; apply exp_pos|]. assert (N : ln c <= 0) by (rewrite <- ln_1; left; apply ln_increasing; lra). unfold Rpower. apply exp_le1. nra. }
  split; [apply Rmult_le_pos; [apply Rmult_le_pos; lra|lra]|]. apply Rmult_le_compat_r; [lra|]. nra.
Qed.
Lemma npow_lip a b q p p' : 0 <= a <= 1 -> 0 <= b <= 1 -> 1 <= q -> npow a q = Fin p -> npow b q = Fin p' -> Rabs (p - p') <= q * Rabs (a - b).
Proof.
  assert (W : forall a b q p p', 0 <= a -> a < b -> b <= 1 -> 1 <= q -> npow a q = Fin p -> npow b q = Fin p' -> Rabs (p - p') <= q * Rabs (a - b)).
  { intros a' b' q' v v' A B C Q Ea Eb. destruct (npow_unit a' q' ltac:(lra) Q) as (w & Ew & Bw & Pw & Zw). destruct (npow_unit b' q' ltac:(lra) Q) as (w' & Ew' & Bw' & Pw' & _).
    assert (v = w) by congruence. assert (v' = w') by congruence. subst. rewrite Rabs_minus_sym, (Rabs_minus_sym a'), (Rabs_pos_eq (b' - a')) by lra. destruct A as [A|A].
    - rewrite Pw by exact A. rewrite Pw' by lra. pose proof (Rpower_lip a' b' q' A B C Q). rewrite Rabs_pos_eq; lra.
    - rewrite (Zw (eq_sym A)). rewrite Rabs_pos_eq by lra. nra. }
  intros Ha Hb Hq Ea Eb. destruct (Rtotal_order a b) as [L|[L|L]].
  - apply W; lra || assumption.
  - subst b. assert (p = p') by congruence. subst. rewrite !Rminus_diag_eq by reflexivity. rewrite Rabs_R0. lra.
  - rewrite Rabs_minus_sym, (Rabs_minus_sym a). apply W; lra || assumption.
Qed.
Lemma ln10 : 0 < ln 10 <= 3.
Proof.
  split; [rewrite <- ln_1; apply ln_increasing; lra|]. rewrite <- (ln_exp 3). left. apply ln_increasing; [lra|]. replace 3 with (1 + 1 + 1) by ring. rewrite !exp_plus.
  pose proof (exp_ineq1 1 ltac:(lra)) as E2. assert (E : 22 / 10 < exp 1). { assert (exp 1 = exp (/ 2) * exp (/ 2)) as -> by (rewrite <- exp_plus; f_equal; field). pose proof (exp_ineq1 (/ 2) ltac:(lra)). nra. } nra.
Qed.
Lemma fl_one : fl 1 = 1.
Proof. change 1 with (IZR 1). apply fl_int. vm_compute. reflexivity. Qed.

Section Near.
Variable e : R.
Hypothesis Ue : u <= e.
Hypothesis E1 : e <= / 1000.
Variable m : maths.
Hypothesis Hm : accurate_maths e m.
Variables (r h x y x64 y64 : R).
Hypothesis Hr : / 2 ^ 100 <= r.
Hypothesis H1 : 1 <= h.
Hypothesis He : h * e <= / 10000.
Hypothesis Dx : Rabs (x64 - x) <= h * e * r.
Hypothesis Dy : Rabs (y64 - y) <= h * e * r.

Ltac nfl H N := match type of H with near _ ?k ?w ?x ?y => assert (N : near e (k + 6 / 5) w (fl x) y); [apply near_fl; [exact Ue|exact E1|try lra|try lra|exact H]|] end.

Lemma e_small : e <= / 10000. Proof. pose proof (e_pos e Ue). apply Rle_trans with (2 := He). rewrite <- (Rmult_1_l e) at 1. apply Rmult_le_compat_r; lra. Qed.
Lemma shift_near (z z64 z0 : R) : Rabs (z64 - z) <= h * e * r -> Rabs (z - z0) <= r -> Rabs (fl (z64 - z0) - (z - z0)) <= (h + 6 / 5) * e * r.
Proof.
  intros D L. pose proof (e_pos e Ue) as P. pose proof (r_tiny r Hr) as Rt. pose proof tiny_pos as Tp. apply fl_step; [exact Ue|exact E1| |exact L|exact Rt|lra].
  replace (z64 - z0 - (z - z0)) with (z64 - z) by ring. exact D.
Qed.
Lemma sq_le a b c : 0 <= c -> a ^ 2 + b ^ 2 <= c ^ 2 -> Rabs a <= c.
Proof. intros C H. apply Rabs_le. pose proof (pow2_ge_0 b). split; apply Rnot_lt_le; intros L; nra. Qed.

Lemma illum_near i_amp c_dB q x0 y0 : / 2 ^ 100 <= Rabs i_amp -> -100 <= c_dB <= 0 -> 1 <= q -> q * (5 * h + 30) * e <= / 50 ->
  (x - x0) ^ 2 + (y - y0) ^ 2 <= (1 - (5 * h + 25) * e) * r ^ 2 ->
  exists Ea Ea64, illum_parabolic [i_amp; c_dB; q; x0; y0] r = Ok Ea /\ illum_parabolic64 m [i_amp; c_dB; q; x0; y0] r = Ok Ea64 /\ near e (45 + q * (5 * h + 27)) (Rabs i_amp) (Ea64 x64 y64) (Ea x y).
Proof.
  intros Hi Hc Hq Hqe Hin. pose proof e_small as E2. pose proof (e_pos e Ue) as P. pose proof (r_pos r Hr) as R0. pose proof (r_tiny r Hr) as Rt. pose proof tiny_pos as Tp. pose proof tiny_1 as T1. destruct Hm as (_ & _ & Hpow & H10 & _). destruct small_300 as [T3 _].
  assert (Q1 : 0 <= (5 * h + 25) * e) by nra. assert (Rr : 0 < r * r) by nra.
  assert (Hin1 : (x - x0) ^ 2 + (y - y0) ^ 2 <= r ^ 2) by (eapply Rle_trans; [exact Hin|]; nra).
  assert (Lx : Rabs (x - x0) <= r) by (apply (sq_le _ (y - y0)); lra). assert (Ly : Rabs (y - y0) <= r) by (apply (sq_le _ (x - x0)); lra).
  pose proof (shift_near x x64 x0 Dx Lx) as Sx. pose proof (shift_near y y64 y0 Dy Ly) as Sy.
  assert (Rle : rr (x - x0) (y - y0) <= r). { unfold rr. rewrite <- (sqrt_pow2 r) by lra. apply sqrt_le_1_alt. exact Hin1. }
  assert (Dr : Rabs (r - r) <= 6 / 5 * e * r). { rewrite Rminus_diag_eq, Rabs_R0 by reflexivity. nra. }
  pose proof (ratio_near e Ue E1 r (h + 6 / 5) (x - x0) (y - y0) (fl (x64 - x0)) (fl (y64 - y0)) Hr ltac:(lra) ltac:(lra) Sx Sy r r Rle ltac:(lra) Dr) as A.
  eexists. eexists. split; [reflexivity|]. split; [reflexivity|]. cbv beta zeta. unfold r64 in A. set (t64 := fl (fl (sqrt (fl (square64 (fl (x64 - x0)) + square64 (fl (y64 - y0))))) / r)) in *.
  fold (rr (x - x0) (y - y0)). set (t := rr (x - x0) (y - y0) / r) in *.
  set (k := 203 / 100 * (h + 6 / 5) + 6) in *. assert (Kk : k <= 203 / 100 * h + 9) by (unfold k; lra). assert (K0 : 0 <= k) by (unfold k; lra). assert (Ke : k * e <= / 50). { apply Rle_trans with ((203 / 100 * h + 9) * e); [apply Rmult_le_compat_r; lra|]. lra. }
  pose proof (near_mul e Ue k k 1 1 t64 t t64 t K0 ltac:(lra) A A) as S1. rewrite Rmult_1_l in S1. nfl S1 S2. fold (square64 t64) in S2. destruct S2 as [S2 S3].
  assert (T0 : 0 <= t * t) by nra. rewrite Rabs_pos_eq in S3 by exact T0.
  assert (N1 : near e (21 / 10 * k + 6 / 5) 1 (1 - square64 t64) (1 - t * t)). { split; [|rewrite Rabs_pos_eq; lra]. replace (1 - square64 t64 - (1 - t * t)) with (- (square64 t64 - t * t)) by ring. rewrite Rabs_Ropp. lra. }
  nfl N1 N2. set (b64 := fl (1 - square64 t64)) in *. replace (1 - t ^ 2) with (1 - t * t) by ring. set (b := 1 - t * t) in *. destruct N2 as [N2 N3].
  assert (B : (5 * h + 25) * e <= b).
  { unfold b, t, rr. assert (Es : sqrt ((x - x0) ^ 2 + (y - y0) ^ 2) / r * (sqrt ((x - x0) ^ 2 + (y - y0) ^ 2) / r) = ((x - x0) ^ 2 + (y - y0) ^ 2) / r ^ 2). { unfold Rdiv. replace (sqrt ((x - x0) ^ 2 + (y - y0) ^ 2) * / r * (sqrt ((x - x0) ^ 2 + (y - y0) ^ 2) * / r)) with (sqrt ((x - x0) ^ 2 + (y - y0) ^ 2) * sqrt ((x - x0) ^ 2 + (y - y0) ^ 2) * (/ r * / r)) by ring. rewrite sqrt_sqrt by (apply Rplus_le_le_0_compat; apply pow2_ge_0). field. lra. }
    rewrite Es. assert (((x - x0) ^ 2 + (y - y0) ^ 2) / r ^ 2 <= 1 - (5 * h + 25) * e); [|lra]. apply Rmult_le_reg_r with (r ^ 2); [nra|]. unfold Rdiv. rewrite Rmult_assoc, Rinv_l, Rmult_1_r by nra. exact Hin. }
  assert (B1 : b <= 1) by (unfold b; lra). assert (N4 : Rabs (b64 - b) <= (43 / 10 * h + 22) * e). { eapply Rle_trans; [exact N2|]. rewrite Rmult_1_r. apply Rmult_le_compat_r; lra. }
  assert (B64 : 0 <= b64 <= 1). { split; [apply Rabs_le_iff in N4; nra|]. unfold b64. apply Rle_trans with (fl 1); [|rewrite fl_one; lra]. apply fl_le. assert (0 <= square64 t64) by (apply fl_pos; nra). lra. }
  destruct (Hpow b64 q B64 Hq) as (v & w & Ev & Ew & Evw). destruct (npow_unit b q ltac:(nra) Hq) as (p & Ep & Bp & _). pose proof (npow_lip b64 b q w p B64 ltac:(nra) Hq Ew Ep) as Lp. rewrite Ev, Ep.
  set (kp := 1 + q * (43 / 10 * h + 22)). assert (Np : near e kp 1 v p).
  { split; [|rewrite Rabs_pos_eq; lra]. replace (v - p) with ((v - w) + (w - p)) by ring. eapply Rle_trans; [apply Rabs_triang|]. assert (q * Rabs (b64 - b) <= q * ((43 / 10 * h + 22) * e)) by (apply Rmult_le_compat_l; lra). unfold kp. lra. }
  assert (Qe : 0 <= q * e) by nra. assert (Qh : q * e <= q * h * e) by nra. assert (Kp0 : 0 <= kp) by (unfold kp; nra). assert (Kpe : kp * e <= / 40) by (unfold kp; lra).
  set (s := c_dB / 20) in *. assert (Hs : -5 <= s <= 0) by (unfold s; lra). assert (Fs : Rabs (fl s - s) <= 6 * e). { eapply Rle_trans; [apply (fl_err e s Ue)|]. rewrite Rabs_left1 by lra. nra. }
  assert (Fs0 : fl s <= 0) by (rewrite <- fl_0; apply fl_le; lra). pose proof ln10 as L10.
  set (c := Rpower 10 s). set (c64 := m_pow10 m (fl s)). assert (Nc : near e 19 1 c64 c).
  { split.
    - pose proof (H10 (fl s) Fs0) as A1. pose proof (exp_lip (fl s * ln 10) (s * ln 10) ltac:(nra) ltac:(nra)) as A2. rewrite <- Rmult_minus_distr_r, Rabs_mult, (Rabs_pos_eq (ln 10)) in A2 by lra. unfold c, c64. unfold Rpower in *.
      replace (m_pow10 m (fl s) - exp (s * ln 10)) with ((m_pow10 m (fl s) - exp (fl s * ln 10)) + (exp (fl s * ln 10) - exp (s * ln 10))) by ring. eapply Rle_trans; [apply Rabs_triang|]. pose proof (Rabs_pos (fl s - s)). nra.
    - unfold c, Rpower. rewrite Rabs_pos_eq by (left; apply exp_pos). apply exp_le1. nra. }
  assert (C0 : 0 < c) by (unfold c, Rpower; apply exp_pos). destruct Nc as [Nc Nc1]. rewrite Rabs_pos_eq in Nc1 by lra.
  assert (N5 : near e 19 1 (1 - c64) (1 - c)). { split; [|rewrite Rabs_pos_eq; lra]. replace (1 - c64 - (1 - c)) with (- (c64 - c)) by ring. rewrite Rabs_Ropp. exact Nc. }
  nfl N5 N6. pose proof (near_mul e Ue (19 + 6 / 5) kp 1 1 _ _ _ _ Kp0 ltac:(lra) N6 Np) as N7. rewrite Rmult_1_l in N7. nfl N7 N8. destruct N8 as [N8 _].
  assert (N9 : near e (42 + 11 / 10 * kp) 1 (c64 + fl (fl (1 - c64) * v)) (c + (1 - c) * p)).
  { split; [|rewrite Rabs_pos_eq; nra]. replace (c64 + fl (fl (1 - c64) * v) - (c + (1 - c) * p)) with ((c64 - c) + (fl (fl (1 - c64) * v) - (1 - c) * p)) by ring. eapply Rle_trans; [apply Rabs_triang|]. lra. }
  nfl N9 N10. pose proof (near_scale e _ _ _ _ i_amp N10) as N11. rewrite Rmult_1_r in N11.
  assert (Ti : tiny <= Rabs i_amp) by (apply Rle_trans with (/ 2 ^ 100); lra). nfl N11 N12. cbn [nmul nadd nfl nan_to_num].
  eapply near_le; [exact Ue| |exact N12]. unfold kp. nra.
Qed.

(** ** The field *)
Lemma field_near (n : nat) K W W64 B Ea Ea64 A0 kI dl dl64 De : (2 * length K = (n + 1) * (n + 2))%nat -> (8 * Z.of_nat (length K) + 1 < 2 ^ 53)%Z ->
  wavefront K = Ok W -> wavefront64 (m_lm m) K = Ok W64 -> tiny <= A0 -> 0 <= kI -> kI * e <= / 50 -> near e (12 * h + 72) De dl64 dl -> near e kI A0 Ea64 Ea -> (B = 0 \/ B = 1 /\ x ^ 2 + y ^ 2 <= (1 - (4 * h + 12) * e) * r ^ 2) ->
  (h + 7) * loss n * (1 + 2 * PI * (size K + De)) * e <= / 50 ->
  let phi := (W (rr x y / r) (arctan2 y x) + dl) * 2 * PI in let phi64 := fl (fl (fl (W64 (fl (r64 x64 y64 / r)) (m_atan2 m y64 x64) + dl64) * 2) * fl PI) in
  let k := kI + 5 + 11 / 10 * ((h + 7) * loss n * (2 * PI * (size K + De))) in
  near e k A0 (fl (fl (B * Ea64) * lm_cos (m_lm m) phi64)) (B * Ea * cos phi) /\ near e k A0 (fl (fl (B * Ea64) * lm_sin (m_lm m) phi64)) (B * Ea * sin phi).
Proof.
  intros HK H53 EW EW64 HA KI0 KI Nd NE HB Hk phi phi64 k. pose proof e_small as E2. pose proof (e_pos e Ue) as P. pose proof tiny_pos as Tp. pose proof (loss_12 n) as L12. destruct Hm as (Hl & Ha & _).
  pose proof (near_w e _ _ _ _ Nd) as De0. assert (L1 : (1 <= length K)%nat) by nia. destruct (size_tiny K L1) as [S1 S2]. pose proof PI_RGT_0 as P0. assert (P1 : 1 <= PI) by (pose proof PI2_1; lra). set (w := size K + De) in *. assert (W0 : 0 < w) by (unfold w; lra).
  assert (Pw : 0 <= 2 * PI * w) by (apply Rmult_le_pos; lra). set (F := 2 * PI * w) in *. assert (HL : 0 <= (h + 7) * loss n) by (apply Rmult_le_pos; lra). assert (K0 : 0 <= k) by (unfold k; assert (0 <= (h + 7) * loss n * F) by (apply Rmult_le_pos; assumption); lra).
  destruct HB as [->|[-> Hin]].
  { rewrite !Rmult_0_l, fl_0, !Rmult_0_l, fl_0. split; (apply near_le with (k := 0); [exact Ue|exact K0|apply near_refl; rewrite Rabs_R0; lra]). }
  assert (HLe : (h + 7) * loss n * e <= / 50). { eapply Rle_trans; [|exact Hk]. replace ((h + 7) * loss n * (1 + F) * e) with ((h + 7) * loss n * e + (h + 7) * loss n * F * e) by ring. assert (0 <= (h + 7) * loss n * F * e) by (apply Rmult_le_pos; [apply Rmult_le_pos; assumption|lra]). lra. }
  pose proof (W_pixel e Ue E1 r h x y x64 y64 Hr H1 ltac:(lra) Dx Dy (m_atan2 m) Ha (m_lm m) n K W W64 Hl HK H53 ltac:(nra) EW EW64 Hin) as NW.
  assert (Nd' : near e ((h + 6) * loss n) De dl64 dl) by (eapply near_le; [exact Ue| |exact Nd]; nra).
  pose proof (near_add e _ _ _ _ _ _ _ NW Nd') as Ns. fold w in Ns.
  assert (LE : 12 * e <= loss n * e) by (apply Rmult_le_compat_r; lra). assert (H6 : 0 <= (h + 6) * loss n) by (apply Rmult_le_pos; lra). assert (Tw : tiny <= w) by (unfold w; lra).
  nfl Ns Ns'.
  destruct Ns' as [Na Nb]. pose proof (twice_pi e ((h + 6) * loss n + 6 / 5) w _ _ Ue E1 ltac:(lra) ltac:(lra) Na Nb Tw) as Np. fold phi64 in Np. fold phi in Np. fold F in Np.
  assert (Np' : Rabs (phi64 - phi) <= (h + 7) * loss n * F * e). { eapply Rle_trans; [exact Np|]. replace ((h + 7) * loss n * F * e) with (((h + 7) * loss n) * e * F) by ring. apply Rmult_le_compat_r; [exact Pw|]. apply Rmult_le_compat_r; [lra|]. lra. }
  clearbody phi phi64. destruct Hl as (_ & Hc & Hs). rewrite !Rmult_1_l. nfl NE NE'.
  assert (G : forall f f64, (forall z, Rabs (f64 z - f z) <= e) -> (forall z z', Rabs (f z - f z') <= Rabs (z - z')) -> (forall z, Rabs (f z) <= 1) -> near e k A0 (fl (fl Ea64 * f64 phi64)) (Ea * f phi)).
  { intros f f64 G1 G2 G3. assert (Nf : near e (1 + (h + 7) * loss n * F) 1 (f64 phi64) (f phi)).
    { split; [|apply G3]. replace (f64 phi64 - f phi) with ((f64 phi64 - f phi64) + (f phi64 - f phi)) by ring. eapply Rle_trans; [apply Rabs_triang|]. pose proof (G1 phi64). pose proof (G2 phi64 phi). lra. }
    assert (Hk2 : 0 <= (h + 7) * loss n * F) by (apply Rmult_le_pos; assumption).
    pose proof (near_mul e Ue (kI + 6 / 5) (1 + (h + 7) * loss n * F) A0 1 _ _ _ _ ltac:(lra) ltac:(lra) NE' Nf) as Nm. rewrite Rmult_1_r in Nm.
    assert (Hk3 : (h + 7) * loss n * F * e <= / 50). { eapply Rle_trans; [|exact Hk]. replace ((h + 7) * loss n * (1 + F) * e) with ((h + 7) * loss n * e + (h + 7) * loss n * F * e) by ring. assert (0 <= (h + 7) * loss n * e) by (apply Rmult_le_pos; lra). lra. }
    nfl Nm Nq. eapply near_le; [exact Ue| |exact Nq]. unfold k. lra. }
  split; apply G; try assumption.
  - exact cos_lip.
  - intros z. pose proof (COS_bound z). apply Rabs_le. lra.
  - exact sin_lip.
  - intros z. pose proof (SIN_bound z). apply Rabs_le. lra.
Qed.
End Near.
