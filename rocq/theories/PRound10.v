(** Rounding errors of one pixel of the aperture field. *)
From Coq Require Import Reals List Lra Lia ZArith.
From Verif Require Import PyBase PyLib Sums Num MZernike SZernike MMath MAperture MTel MRad SFloat MFloat MFloat2 MFloat3 MFloat4 SRound SRound2 SRound3 PPolar PZernike PZern2 PEnum PWave PPhase PPhase2 PSym POrder64 PRound PRound2 PRound4 PRound5 PRound7 PRound8 PRound9 PSim.
From Coquelicot Require Import Complex.
Import ListNotations.
Open Scope R_scope.

(** x is y up to k e w, and y is at most w. *)
Definition near (e k w x y : R) : Prop := Rabs (x - y) <= k * e * w /\ Rabs y <= w.

Section Near.
Variable e : R.
Hypothesis Ue : u <= e.
Hypothesis E1 : e <= / 1000.

Lemma e_pos : 0 < e. Proof. pose proof roundoff_pos. lra. Qed.
Lemma near_refl w y : Rabs y <= w -> near e 0 w y y.
Proof. intros H. split; [|exact H]. rewrite Rminus_diag_eq by reflexivity. rewrite Rabs_R0. lra. Qed.
Lemma near_w k w x y : near e k w x y -> 0 <= w. Proof. intros [_ H]. pose proof (Rabs_pos y). lra. Qed.
Lemma near_le k k' w x y : k <= k' -> near e k w x y -> near e k' w x y.
Proof. intros H N. pose proof (near_w _ _ _ _ N) as W. destruct N as [A B]. split; [|exact B]. eapply Rle_trans; [exact A|]. pose proof e_pos. apply Rmult_le_compat_r; [exact W|]. apply Rmult_le_compat_r; lra. Qed.
Lemma near_fl k w x y : tiny <= w -> k * e <= / 10 -> near e k w x y -> near e (k + 6 / 5) w (fl x) y.
Proof. intros T K [A B]. split; [|exact B]. apply fl_step; assumption. Qed.
Lemma near_mul k k' w w' x y x' y' : 0 <= k' -> k * e <= / 10 -> near e k w x y -> near e k' w' x' y' -> near e (k + 11 / 10 * k') (w * w') (x * x') (y * y').
Proof.
  intros K K1 N N'. pose proof (near_w _ _ _ _ N). pose proof (near_w _ _ _ _ N'). destruct N as [A B], N' as [A' B']. pose proof e_pos. split; [apply mul_step; assumption|].
  rewrite Rabs_mult. apply Rmult_le_compat; try apply Rabs_pos; assumption.
Qed.
Lemma near_add k w w' x y x' y' : near e k w x y -> near e k w' x' y' -> near e k (w + w') (x + x') (y + y').
Proof.
  intros [A B] [A' B']. split; [|eapply Rle_trans; [apply Rabs_triang|]; lra]. replace (x + x' - (y + y')) with ((x - y) + (x' - y')) by ring. eapply Rle_trans; [apply Rabs_triang|]. lra.
Qed.
(** A quotient of numbers up to 1 by numbers from 1 on. *)
Lemma near_div1 k k' x y d d0 : 0 <= k -> 0 <= k' -> k' * e <= / 10 -> near e k 1 x y -> 1 <= d0 -> Rabs (d - d0) <= k' * e -> near e (10 / 9 * (k + k')) 1 (x / d) (y / d0).
Proof.
  intros K K' K1 [A B] D H. pose proof e_pos as P. assert (D9 : 9 / 10 <= d) by (apply Rabs_le_iff in H; lra). split.
  - replace (x / d - y / d0) with ((x - y) * / d + y * (d0 - d) * / (d * d0)) by (field; lra). eapply Rle_trans; [apply Rabs_triang|]. rewrite !Rabs_mult.
    assert (I1 : Rabs (/ d) <= 10 / 9). { rewrite Rabs_pos_eq by (left; apply Rinv_0_lt_compat; lra). replace (10 / 9) with (/ (9 / 10)) by field. apply Rinv_le_contravar; lra. }
    assert (I2 : Rabs (/ (d * d0)) <= 10 / 9). { rewrite Rabs_pos_eq by (left; apply Rinv_0_lt_compat; nra). replace (10 / 9) with (/ (9 / 10)) by field. apply Rinv_le_contravar; nra. }
    rewrite Rabs_minus_sym in H. pose proof (Rabs_pos (x - y)). pose proof (Rabs_pos y). pose proof (Rabs_pos (d0 - d)). pose proof (Rabs_pos (/ d)). pose proof (Rabs_pos (/ (d * d0))).
    assert (Rabs (x - y) * Rabs (/ d) <= k * e * 1 * (10 / 9)) by (apply Rmult_le_compat; assumption).
    assert (Rabs y * Rabs (d0 - d) <= 1 * (k' * e)) by (apply Rmult_le_compat; assumption).
    assert (Rabs y * Rabs (d0 - d) * Rabs (/ (d * d0)) <= 1 * (k' * e) * (10 / 9)) by (apply Rmult_le_compat; try assumption; apply Rmult_le_pos; assumption). lra.
  - unfold Rdiv. rewrite Rabs_mult. rewrite (Rabs_pos_eq (/ d0)) by (left; apply Rinv_0_lt_compat; lra). assert (/ d0 <= 1) by (rewrite <- Rinv_1; apply Rinv_le_contravar; lra). pose proof (Rabs_pos y). assert (0 < / d0) by (apply Rinv_0_lt_compat; lra). nra.
Qed.
Lemma near_scale k w x y c : near e k w x y -> near e k (Rabs c * w) (c * x) (c * y).
Proof. intros [A B]. pose proof (Rabs_pos c). split; [rewrite <- Rmult_minus_distr_l, Rabs_mult|rewrite Rabs_mult]; nra. Qed.
Lemma near_scale_r k w x y c : near e k w x y -> near e k (w * Rabs c) (x * c) (y * c).
Proof. intros N. rewrite (Rmult_comm x), (Rmult_comm y), (Rmult_comm w). apply near_scale, N. Qed.
Lemma tiny_le1 : tiny <= 1. Proof. exact tiny_1. Qed.

Ltac nfl H N := match type of H with near _ ?k ?w ?x ?y => assert (N : near e (k + 6 / 5) w (fl x) y); [apply near_fl; [try lra|try lra|exact H]|] end.

(** ** Polar coordinates of a pixel whose coordinates are known up to h e r *)
Section Pixel.
Variables (r h x y x64 y64 : R).
Hypothesis Hr : / 2 ^ 100 <= r.
Hypothesis H1 : 1 <= h.
Hypothesis He : h * e <= / 2000.
Hypothesis Dx : Rabs (x64 - x) <= h * e * r.
Hypothesis Dy : Rabs (y64 - y) <= h * e * r.

Lemma r_pos : 0 < r. Proof. assert (P0 : 0 < / 2 ^ 100) by (apply Rinv_0_lt_compat, pow_lt; lra). lra. Qed.
Lemma r_tiny : tiny <= r. Proof. destruct small_300 as [T3 _]. apply Rle_trans with (2 := Hr). lra. Qed.

Lemma radii : Rabs (sqrt (x64 ^ 2 + y64 ^ 2) - sqrt (x ^ 2 + y ^ 2)) <= 2 * h * e * r.
Proof.
  pose proof r_pos as R0. pose proof (radius_lip (sqrt (x64 ^ 2 + y64 ^ 2) / r) (arctan2 y64 x64) (sqrt (x ^ 2 + y ^ 2) / r) (arctan2 y x)) as L.
  assert (P : forall a b, 0 <= sqrt (a ^ 2 + b ^ 2) / r) by (intros; apply Rmult_le_pos; [apply sqrt_pos|left; apply Rinv_0_lt_compat, R0]). specialize (L (P _ _) (P _ _)). unfold apart in L. rewrite !pol_xy in L by exact R0.
  unfold Cminus, Cplus, Copp in L. cbn [fst snd] in L. pose proof (Cmod_le (x64 / r + - (x / r)) (y64 / r + - (y / r))) as M. replace (x64 / r + - (x / r)) with ((x64 - x) * / r) in * by (unfold Rdiv; ring). replace (y64 / r + - (y / r)) with ((y64 - y) * / r) in * by (unfold Rdiv; ring).
  rewrite !Rabs_mult, (Rabs_pos_eq (/ r)) in M by (left; apply Rinv_0_lt_compat, R0). replace (sqrt (x64 ^ 2 + y64 ^ 2) / r - sqrt (x ^ 2 + y ^ 2) / r) with ((sqrt (x64 ^ 2 + y64 ^ 2) - sqrt (x ^ 2 + y ^ 2)) * / r) in L by (unfold Rdiv; ring).
  rewrite Rabs_mult, (Rabs_pos_eq (/ r)) in L by (left; apply Rinv_0_lt_compat, R0). apply Rmult_le_reg_r with (/ r); [apply Rinv_0_lt_compat, R0|]. eapply Rle_trans; [exact L|]. eapply Rle_trans; [exact M|].
  rewrite <- Rmult_plus_distr_r. apply Rmult_le_compat_r; [left; apply Rinv_0_lt_compat, R0|]. lra.
Qed.
Definition r64 : R := fl (sqrt (fl (square64 x64 + square64 y64))).
Definition rr : R := sqrt (x ^ 2 + y ^ 2).
Lemma radius_near : rr <= r -> near e (2 * h + 33 / 10) r r64 rr.
Proof.
  intros L. pose proof r_pos as R0. pose proof radii as Rd. apply Rabs_le_iff in Rd as Rd'. unfold rr in *. pose proof (sqrt_pos (x ^ 2 + y ^ 2)) as S0. split; [|rewrite Rabs_pos_eq; lra].
  assert (Q : 2 * h * e * r <= / 1000 * r) by (apply Rmult_le_compat_r; lra). pose proof (radius_err r x64 y64 Hr ltac:(lra)) as Er. unfold r64.
  replace (fl (sqrt (fl (square64 x64 + square64 y64))) - sqrt (x ^ 2 + y ^ 2)) with ((fl (sqrt (fl (square64 x64 + square64 y64))) - sqrt (x64 ^ 2 + y64 ^ 2)) + (sqrt (x64 ^ 2 + y64 ^ 2) - sqrt (x ^ 2 + y ^ 2))) by ring.
  eapply Rle_trans; [apply Rabs_triang|]. assert (33 / 10 * u * r <= 33 / 10 * e * r) by (apply Rmult_le_compat_r; lra). lra.
Qed.
(** Divided by the radius of the dish, or by a length from there on. *)
Lemma ratio_near d d64 : rr <= r -> r <= d -> Rabs (d64 - d) <= 6 / 5 * e * d -> near e (203 / 100 * h + 6) 1 (fl (r64 / d64)) (rr / d).
Proof.
  intros L D Dd. pose proof r_pos as R0. pose proof e_pos as P. destruct (radius_near L) as [A B].
  pose proof (div_step e (2 * h + 33 / 10) r d r64 rr d64 P E1 ltac:(lra) ltac:(lra) ltac:(lra) A B Dd) as Q.
  assert (W : r / d <= 1) by (apply Rmult_le_reg_r with d; [lra|]; unfold Rdiv; rewrite Rmult_assoc, Rinv_l; lra). assert (W0 : 0 <= r / d) by (apply Rmult_le_pos; [lra|left; apply Rinv_0_lt_compat; lra]).
  set (k := (2 * h + 33 / 10 + 6 / 5) * (101 / 100)) in *. assert (K : 0 <= k * e) by (unfold k; nra).
  apply near_le with (k := k + 6 / 5); [unfold k; lra|]. apply near_fl; [exact tiny_1|unfold k; lra|]. split; [eapply Rle_trans; [exact Q|]; nra|].
  unfold Rdiv. rewrite Rabs_mult, (Rabs_pos_eq (/ d)) by (left; apply Rinv_0_lt_compat; lra). eapply Rle_trans; [apply Rmult_le_compat_r; [left; apply Rinv_0_lt_compat; lra|exact B]|]. exact W.
Qed.
Lemma rim_ok : x ^ 2 + y ^ 2 <= (1 - (4 * h + 12) * e) * r ^ 2 -> 0 <= rr <= (1 - (2 * h + 6) * e) * r.
Proof.
  intros Hin. pose proof r_pos as R0. pose proof e_pos as P. unfold rr. split; [apply sqrt_pos|]. apply Rle_trans with (sqrt (((1 - (2 * h + 6) * e) * r) * ((1 - (2 * h + 6) * e) * r))); [|rewrite sqrt_square; [lra|apply Rmult_le_pos; lra]].
  apply sqrt_le_1_alt. eapply Rle_trans; [exact Hin|]. assert (0 < r * r) by nra. assert (0 <= ((2 * h + 6) * e) * ((2 * h + 6) * e)) by nra. nra.
Qed.
Variable at2 : R -> R -> R.
Hypothesis Ha : accurate_angle e at2.
Lemma pixel_apart : x ^ 2 + y ^ 2 <= (1 - (4 * h + 12) * e) * r ^ 2 ->
  0 <= fl (r64 / r) <= 1 /\ apart (fl (r64 / r)) (at2 y64 x64) (rr / r) (arctan2 y x) <= (2 * h + 7) * e /\ 0 <= rr / r <= 1.
Proof.
  intros Hin. pose proof r_pos as R0. pose proof e_pos as P. destruct (rim_ok Hin) as [Q0 Q1]. set (q := rr / r). set (a := sqrt (x64 ^ 2 + y64 ^ 2) / r).
  assert (Sq : 0 <= q <= 1 - (2 * h + 6) * e) by (split; [apply Rmult_le_pos; [exact Q0|left; apply Rinv_0_lt_compat, R0]|]; apply Rmult_le_reg_r with r; [exact R0|]; unfold q, Rdiv; rewrite Rmult_assoc, Rinv_l, Rmult_1_r by lra; exact Q1).
  assert (Pp : Cmod (Cminus (pol a (arctan2 y64 x64)) (pol q (arctan2 y x))) <= 2 * h * e).
  { unfold a, q, rr. rewrite !pol_xy by exact R0. unfold Cminus, Cplus, Copp. cbn [fst snd]. eapply Rle_trans; [apply Cmod_le|]. replace (x64 / r + - (x / r)) with ((x64 - x) * / r) by (unfold Rdiv; ring). replace (y64 / r + - (y / r)) with ((y64 - y) * / r) by (unfold Rdiv; ring).
    rewrite !Rabs_mult, (Rabs_pos_eq (/ r)) by (left; apply Rinv_0_lt_compat, R0). apply Rmult_le_reg_r with r; [exact R0|]. rewrite Rmult_plus_distr_r, !Rmult_assoc, Rinv_l by lra. lra. }
  assert (A0 : 0 <= a) by (apply Rmult_le_pos; [apply sqrt_pos|left; apply Rinv_0_lt_compat, R0]). pose proof (radius_lip a (arctan2 y64 x64) q (arctan2 y x) A0 (proj1 Sq)) as Ra. unfold apart in Ra. assert (Ra' : Rabs (a - q) <= 2 * h * e) by lra. apply Rabs_le_iff in Ra'.
  assert (Sa : sqrt (x64 ^ 2 + y64 ^ 2) = a * r) by (unfold a, Rdiv; rewrite Rmult_assoc, Rinv_l; lra). assert (Sb : sqrt (x64 ^ 2 + y64 ^ 2) <= 101 / 100 * r) by (rewrite Sa; apply Rmult_le_compat_r; lra).
  pose proof (radius_err r x64 y64 Hr Sb) as Er. fold r64 in Er. rewrite Sa in Er. set (R64 := r64) in *.
  assert (Ed : Rabs (R64 / r - a) <= 33 / 10 * e). { replace (R64 / r - a) with ((R64 - a * r) * / r) by (field; lra). rewrite Rabs_mult, (Rabs_pos_eq (/ r)) by (left; apply Rinv_0_lt_compat, R0). apply Rmult_le_reg_r with r; [exact R0|]. rewrite Rmult_assoc, Rinv_l, Rmult_1_r by lra. eapply Rle_trans; [exact Er|]. apply Rmult_le_compat_r; lra. }
  set (rho64 := fl (R64 / r)). pose proof (fl_err e (R64 / r) Ue) as F. fold rho64 in F. apply Rabs_le_iff in Ed. assert (Rd : Rabs (R64 / r) <= 101 / 100) by (apply Rabs_le; lra). pose proof tiny_1 as T1.
  assert (F' : Rabs (rho64 - a) <= 44 / 10 * e). { replace (rho64 - a) with ((rho64 - R64 / r) + (R64 / r - a)) by ring. eapply Rle_trans; [apply Rabs_triang|]. assert (Rabs (R64 / r - a) <= 33 / 10 * e) by (apply Rabs_le; lra). assert (e * (Rabs (R64 / r) + tiny / 100) <= e * (11 / 10)) by (apply Rmult_le_compat_l; lra). lra. }
  assert (R64p : 0 <= R64) by (apply fl_pos, sqrt_pos). assert (Rp : 0 <= rho64) by (apply fl_pos, Rmult_le_pos; [exact R64p|left; apply Rinv_0_lt_compat, R0]). split; [|split; [|nra]].
  - split; [exact Rp|]. apply Rabs_le_iff in F'. lra.
  - unfold apart. set (t64 := at2 y64 x64). replace (Cminus (pol rho64 t64) (pol q (arctan2 y x))) with (Cplus (Cplus (Cminus (pol rho64 t64) (pol a t64)) (Cminus (pol a t64) (pol a (arctan2 y64 x64)))) (Cminus (pol a (arctan2 y64 x64)) (pol q (arctan2 y x)))) by (unfold Cminus; ring).
    eapply Rle_trans; [apply Cmod_triangle|]. eapply Rle_trans; [apply Rplus_le_compat_r, Cmod_triangle|]. pose proof (angle_apart e at2 x64 y64 a Ha ltac:(lra)) as Q2. fold t64 in Q2.
    assert (Q3 : Cmod (Cminus (pol rho64 t64) (pol a t64)) <= 44 / 10 * e).
    { replace (Cminus (pol rho64 t64) (pol a t64)) with (pol (rho64 - a) t64) by (unfold pol, Cminus, Cplus, Copp; cbn [fst snd]; f_equal; ring). destruct (Rle_dec 0 (rho64 - a)) as [L|L].
      - rewrite pol_mod by exact L. rewrite Rabs_pos_eq in F' by exact L. exact F'.
      - replace (pol (rho64 - a) t64) with (Copp (pol (a - rho64) t64)) by (unfold pol, Copp; cbn [fst snd]; f_equal; ring). rewrite Cmod_opp, pol_mod by lra. rewrite Rabs_left1 in F' by lra. lra. }
    lra.
Qed.
Lemma W_pixel lm (n : nat) K W W64 : accurate e lm -> (2 * length K = (n + 1) * (n + 2))%nat -> (8 * Z.of_nat (length K) + 1 < 2 ^ 53)%Z -> loss n * e <= / 200 ->
  wavefront K = Ok W -> wavefront64 lm K = Ok W64 -> x ^ 2 + y ^ 2 <= (1 - (4 * h + 12) * e) * r ^ 2 ->
  near e ((h + 6) * loss n) (size K) (W64 (fl (r64 / r)) (at2 y64 x64)) (W (rr / r) (arctan2 y x)).
Proof.
  intros Hl HK H53 Hloss EW EW64 Hin. pose proof e_pos as P.
  destruct (W_err e lm n K Hl Ue HK H53 ltac:(lra)) as (W' & W64' & EW' & EW64' & HW). rewrite EW in EW'. rewrite EW64 in EW64'. apply Ok_inj in EW'. apply Ok_inj in EW64'. subst W' W64'.
  destruct (pixel_apart Hin) as (R64 & Ap & R1). set (rho64 := fl (r64 / r)) in *. set (rho := rr / r) in *.
  assert (L1 : (1 <= length K)%nat) by nia. destruct (size_tiny K L1) as [S1 S2]. pose proof tiny_pos as Tp. split.
  - pose proof (HW rho64 (at2 y64 x64) R64 (proj1 (Ha y64 x64))) as A. fold (size K) in A. pose proof (W_lip K n W HK EW rho64 (at2 y64 x64) rho (arctan2 y x) R64 R1) as B.
    assert (Q : INR n * (5 / 2) ^ n <= loss n / 2). { unfold loss. pose proof (bernoulli n). pose proof (pos_INR n). nra. }
    assert (Q0 : 0 <= INR n * (5 / 2) ^ n) by (apply Rmult_le_pos; [apply pos_INR|apply pow_le; lra]).
    assert (B' : INR n * (5 / 2) ^ n * apart rho64 (at2 y64 x64) rho (arctan2 y x) * total_abs K <= loss n / 2 * ((2 * h + 7) * e) * size K).
    { apply Rmult_le_compat; [apply Rmult_le_pos; [exact Q0|apply apart_pos]| |apply Rmult_le_compat; [exact Q0|apply apart_pos|exact Q|exact Ap]|exact S2]. rewrite total_abs_py. apply py_sum_abs_nonneg. }
    replace (W64 rho64 (at2 y64 x64) - W rho (arctan2 y x)) with ((W64 rho64 (at2 y64 x64) - W rho64 (at2 y64 x64)) + (W rho64 (at2 y64 x64) - W rho (arctan2 y x))) by ring. eapply Rle_trans; [apply Rabs_triang|]. pose proof (loss_12 n). assert (0 <= loss n * e * size K) by (apply Rmult_le_pos; [nra|lra]). lra.
  - eapply Rle_trans; [apply (wavefront_bound K W rho _ EW); lra|]. rewrite <- total_abs_py. exact S2.
Qed.

(** ** The optical path difference *)
Lemma opd_term d : rr <= r -> r <= 2 * d -> let a := fl (r64 / fl (2 * d)) in
  near e (98 / 10 * h + 43) 1 (fl (fl (1 - square64 a) / fl (1 + square64 a))) ((1 - (rr / (2 * d)) ^ 2) / (1 + (rr / (2 * d)) ^ 2)).
Proof.
  intros L D a. pose proof r_pos as R0. pose proof e_pos as P. pose proof r_tiny as Rt. pose proof tiny_pos as Tp. pose proof tiny_1 as T1.
  assert (Dd : Rabs (fl (2 * d) - 2 * d) <= 6 / 5 * e * (2 * d)). { eapply Rle_trans; [apply (fl_err e _ Ue)|]. rewrite Rabs_pos_eq by lra. nra. }
  pose proof (ratio_near (2 * d) (fl (2 * d)) L D Dd) as A. fold a in A. set (b := rr / (2 * d)) in *. set (k := 203 / 100 * h + 6) in *.
  pose proof (near_mul k k 1 1 a b a b ltac:(unfold k; lra) ltac:(unfold k; lra) A A) as S1. rewrite Rmult_1_l in S1.
  pose proof (near_fl (k + 11 / 10 * k) 1 (a * a) (b * b) T1 ltac:(unfold k; lra) S1) as S2. fold (square64 a) in S2. set (k2 := k + 11 / 10 * k + 6 / 5) in *. replace (b ^ 2) with (b * b) by ring. destruct S2 as [S2 S3]. set (s := b * b) in *. assert (S0 : 0 <= s) by (unfold s; nra). rewrite Rabs_pos_eq in S3 by exact S0.
  assert (N1 : near e k2 1 (1 - square64 a) (1 - s)). { split; [|rewrite Rabs_pos_eq; lra]. replace (1 - square64 a - (1 - s)) with (- (square64 a - s)) by ring. rewrite Rabs_Ropp. exact S2. }
  pose proof (near_fl k2 1 _ _ T1 ltac:(unfold k2, k; lra) N1) as N2.
  assert (D1 : near e k2 2 (1 + square64 a) (1 + s)). { split; [|rewrite Rabs_pos_eq; lra]. replace (1 + square64 a - (1 + s)) with (square64 a - s) by ring. assert (0 <= k2 * e) by (unfold k2, k; nra). lra. }
  pose proof (near_fl k2 2 _ _ ltac:(lra) ltac:(unfold k2, k; lra) D1) as [D2 _].
  assert (D3 : Rabs (fl (1 + square64 a) - (1 + s)) <= (k2 + 12 / 5) * e).
  { assert (Q : Rabs (1 + square64 a - (1 + s)) <= k2 * e) by (replace (1 + square64 a - (1 + s)) with (square64 a - s) by ring; lra). pose proof (fl_err e (1 + square64 a) Ue) as F. apply Rabs_le_iff in Q as Q'. assert (Rabs (1 + square64 a) <= 21 / 10) by (apply Rabs_le; unfold k2, k in Q'; lra).
    replace (fl (1 + square64 a) - (1 + s)) with ((fl (1 + square64 a) - (1 + square64 a)) + (1 + square64 a - (1 + s))) by ring. eapply Rle_trans; [apply Rabs_triang|]. assert (e * (Rabs (1 + square64 a) + tiny / 100) <= e * (12 / 5)) by (apply Rmult_le_compat_l; lra). lra. }
  pose proof (near_div1 (k2 + 6 / 5) (k2 + 12 / 5) (fl (1 - square64 a)) (1 - s) (fl (1 + square64 a)) (1 + s) ltac:(unfold k2, k; lra) ltac:(unfold k2, k; lra) ltac:(unfold k2, k; lra) N2 ltac:(lra) D3) as Q.
  unfold k2, k in Q. nfl Q Q'. eapply near_le; [|exact Q']. lra.
Qed.
Lemma opd_near Fp F d_z wavel : rr <= r -> r <= 2 * Fp -> r <= 2 * F -> d_z = 0 \/ / 2 ^ 100 <= Rabs d_z -> / 2 ^ 100 <= wavel <= 2 ^ 100 ->
  near e (10 * h + 47) (2 * Rabs d_z / wavel) (fl (opd_manual64 Fp F x64 y64 d_z / wavel)) (opd_manual Fp F x y d_z / wavel).
Proof.
  intros L D1 D2 Hz Hw. pose proof r_pos as R0. pose proof e_pos as P. pose proof tiny_pos as Tp. pose proof tiny_1 as T1. assert (P0 : 0 < / 2 ^ 100) by (apply Rinv_0_lt_compat, pow_lt; lra). assert (W0 : 0 < wavel) by lra.
  unfold opd_manual64, opd_manual. fold r64. fold rr. pose proof (opd_term Fp L D1) as A. pose proof (opd_term F L D2) as B. cbv zeta in A, B |- *.
  set (a64 := fl (fl (1 - square64 (fl (r64 / fl (2 * Fp)))) / fl (1 + square64 (fl (r64 / fl (2 * Fp)))))) in *. set (b64 := fl (fl (1 - square64 (fl (r64 / fl (2 * F)))) / fl (1 + square64 (fl (r64 / fl (2 * F)))))) in *.
  set (a := (1 - (rr / (2 * Fp)) ^ 2) / (1 + (rr / (2 * Fp)) ^ 2)) in *. set (b := (1 - (rr / (2 * F)) ^ 2) / (1 + (rr / (2 * F)) ^ 2)) in *. clearbody a64 b64 a b.
  destruct Hz as [->|Hz].
  { rewrite !Rmult_0_l, Rabs_R0, Rmult_0_r. rewrite fl_0. unfold Rdiv. rewrite !Rmult_0_l, fl_0. apply near_le with (k := 0); [lra|]. apply near_refl. rewrite Rabs_R0. lra. }
  pose proof (near_add _ _ _ _ _ _ _ A B) as S1. nfl S1 S2. pose proof (near_scale _ _ _ _ d_z S2) as S3.
  destruct small_300 as [T3 _].
  assert (Q1 : tiny <= Rabs d_z * (1 + 1)) by (apply Rle_trans with (/ 2 ^ 100); lra). nfl S3 S4.
  pose proof (near_scale_r _ _ _ _ (/ wavel) S4) as S5. rewrite (Rabs_pos_eq (/ wavel)) in S5 by (left; apply Rinv_0_lt_compat, W0).
  assert (I1 : / 2 ^ 100 <= / wavel) by (apply Rinv_le_contravar; lra).
  assert (Q2 : tiny <= Rabs d_z * (1 + 1) * / wavel). { apply Rle_trans with (/ 2 ^ 100 * / 2 ^ 100); [|apply Rmult_le_compat; lra]. eapply Rle_trans; [exact T3|]. rewrite <- Rinv_mult, <- pow_add. apply Rinv_le_contravar; [apply pow_lt; lra|apply Rle_pow; [lra|lia]]. }
  nfl S5 S6. replace (2 * Rabs d_z / wavel) with (Rabs d_z * (1 + 1) * / wavel) by (unfold Rdiv; ring). eapply near_le; [|exact S6]. lra.
Qed.
End Pixel.
End Near.
