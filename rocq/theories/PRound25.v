(** Rounding errors of the mask of the Effelsberg telescope. *)
From Coq Require Import Reals List Lra Lia ZArith Bool.
From Verif Require Import PyBase PyLib Num MMath MAperture MTel STel SFloat MFloat MFloat2 MFloat3 MFloat4 MFloat8 SRound SRound2 SRound3 SRound7 SRad PTel POrder64 PRound PRound2 PRound3 PRound4 PRound5 PRound6 PRound9 PRound10 PRound11 PRound12 PRound13 PRound22 PSim.
Import ListNotations.
Open Scope R_scope.

Lemma line64_opp x1 y1 x2 y2 x : line_equation64 (x1, - y1) (x2, - y2) x = - line_equation64 (x1, y1) (x2, y2) x.
Proof.
  unfold line_equation64. replace (- y2 - - y1) with (- (y2 - y1)) by ring. rewrite fl_opp. unfold Rdiv. rewrite <- Ropp_mult_distr_l, fl_opp, <- Ropp_mult_distr_l, fl_opp.
  match goal with |- fl (- ?a + - y1) = _ => replace (- a + - y1) with (- (a + y1)) by ring end. apply fl_opp.
Qed.
Lemma line64_flip x1 y1 x2 y2 x : line_equation64 (- x1, y1) (- x2, y2) x = line_equation64 (x1, y1) (x2, y2) (- x).
Proof.
  unfold line_equation64. replace (- x2 - - x1) with (- (x2 - x1)) by ring. replace (x - - x1) with (- (- x - x1)) by ring. rewrite !fl_opp. f_equal. f_equal. f_equal.
  match goal with |- fl (?a / - ?b) * _ = _ => replace (a / - b) with (- (a / b)) by (unfold Rdiv; rewrite Rinv_opp; ring) end. rewrite fl_opp. ring.
Qed.

Lemma fl_leg : fl (13 / 4 + 20) = 93 / 4.
Proof. replace (13 / 4 + 20) with (93 / 4) by field. apply fl_format. replace (93 / 4) with (93 * Flocq.Core.Raux.bpow Flocq.Core.Zaux.radix2 (-2)) by (cbn; lra). apply (dyadic_format 93 (-2)); [reflexivity|lia]. Qed.

Lemma near_div e k k' w x y d d0 : 0 < e -> 0 <= k -> 0 <= k' -> k' * e <= / 10 -> near e k w x y -> 0 < d0 -> Rabs (d - d0) <= k' * e * d0 -> near e (10 / 9 * (k + k')) (w / d0) (x / d) (y / d0).
Proof.
  intros P K K' K1 N D H. assert (W : 0 <= w) by (destruct N as [_ N]; pose proof (Rabs_pos y); lra). destruct N as [A B].
  assert (Q : k' * e * d0 <= / 10 * d0) by (apply Rmult_le_compat_r; lra). assert (D9 : 9 / 10 * d0 <= d) by (apply Rabs_le_iff in H; lra). assert (Dp : 0 < d) by lra.
  assert (I0 : 0 < / d0) by (apply Rinv_0_lt_compat, D). split.
  - replace (x / d - y / d0) with (((x - y) + (y * / d0) * (d0 - d)) * / d) by (field; lra). rewrite Rabs_mult. rewrite (Rabs_pos_eq (/ d)) by (left; apply Rinv_0_lt_compat, Dp).
    assert (S : Rabs (x - y + y * / d0 * (d0 - d)) <= (k + k') * e * w).
    { eapply Rle_trans; [apply Rabs_triang|]. rewrite !Rabs_mult, (Rabs_pos_eq (/ d0)) by lra. rewrite (Rabs_minus_sym d0 d).
      assert (Rabs y * / d0 * Rabs (d - d0) <= w * / d0 * (k' * e * d0)). { apply Rmult_le_compat; try exact H; [apply Rmult_le_pos; [apply Rabs_pos|lra]|apply Rabs_pos|apply Rmult_le_compat_r; lra]. }
      replace (w * / d0 * (k' * e * d0)) with (k' * e * w) in * by (field; lra). lra. }
    assert (Id : / d <= 10 / 9 * / d0). { replace (10 / 9 * / d0) with (/ (9 / 10 * d0)) by (field; lra). apply Rinv_le_contravar; lra. }
    replace (10 / 9 * (k + k') * e * (w / d0)) with ((k + k') * e * w * (10 / 9 * / d0)) by (field; lra). apply Rmult_le_compat; [apply Rabs_pos|left; apply Rinv_0_lt_compat, Dp|exact S|exact Id].
  - unfold Rdiv. rewrite Rabs_mult, (Rabs_pos_eq (/ d0)) by lra. apply Rmult_le_compat_r; lra.
Qed.

(** ** The numbers of the far corner *)
Section Corner.
Variables (e alpha : R) (mcsc2 mtan : R -> R).
Hypothesis Ue : u <= e.
Hypothesis E5 : e <= / 100000.
Hypothesis Ha : 0 < alpha <= PI / 4.
Hypothesis Hs : / 1000 <= sin alpha.
Hypothesis Hl : accurate_slopes e mcsc2 mtan alpha.
Let E1 : e <= / 1000. Proof. lra. Qed.
Let c := / sin alpha ^ 2.
Let C := CC alpha.
Let D := 1 + dd alpha.

Lemma alpha_small : 0 < alpha < PI / 2. Proof. pose proof PI_RGT_0. lra. Qed.
Lemma tan_range : / 1000 <= tan alpha <= 1.
Proof.
  pose proof alpha_small as A. assert (Hc : 0 < cos alpha) by (apply cos_gt_0; lra). pose proof (COS_bound alpha) as [_ C1]. split.
  - unfold tan. apply Rle_trans with (sin alpha / 1); [lra|]. unfold Rdiv. apply Rmult_le_compat_l; [lra|]. apply Rinv_le_contravar; lra.
  - rewrite <- tan_PI4. destruct (Req_dec alpha (PI / 4)) as [->|Ne]; [lra|]. left. pose proof PI_RGT_0. apply tan_increasing; lra.
Qed.
Lemma corner_facts : 34 <= C <= 50 /\ dd alpha = C * tan alpha /\ C ^ 2 + D ^ 2 = 50 ^ 2 /\ / 100 <= dd alpha <= 49.
Proof.
  destruct (corner alpha alpha_small) as (K1 & K2 & K3). fold C D in K1, K2, K3. pose proof tan_range as T. assert (E : dd alpha = C * tan alpha) by (unfold D in K2; lra). assert (D0 : 0 < dd alpha) by (rewrite E; apply Rmult_lt_0_compat; lra). assert (DC : dd alpha <= C) by (rewrite E; nra).
  assert (C34 : 34 <= C). { apply Rnot_lt_le. intros H. unfold D in K3. nra. } split; [split; [exact C34|unfold D in K3; nra]|]. split; [exact E|]. split; [exact K3|]. split; [rewrite E; nra|unfold D in K3; nra].
Qed.
Lemma csc_range : 2 <= c <= 1000000.
Proof.
  assert (S2 : sin alpha ^ 2 <= / 2). { pose proof PI_RGT_0. assert (sin alpha <= sin (PI / 4)) by (apply sin_incr_1; lra). rewrite sin_PI4 in *. apply Rle_trans with ((1 / sqrt 2) ^ 2); [apply pow_incr; lra|]. right. replace ((1 / sqrt 2) ^ 2) with (/ (sqrt 2 * sqrt 2)) by (field; pose proof Rlt_sqrt2_0; lra). rewrite sqrt_sqrt by lra. reflexivity. }
  assert (S1 : / 1000000 <= sin alpha ^ 2) by nra. unfold c. split; [rewrite <- (Rinv_inv 2)|rewrite <- (Rinv_inv 1000000)]; apply Rinv_le_contravar; lra.
Qed.

Ltac nfl H N := match type of H with near _ ?k ?w ?x ?y => assert (N : near e (k + 6 / 5) w (fl x) y); [apply near_fl; [exact Ue|exact E1|try lra|try lra|exact H]|] end.
Let d64 := fl (fl (- (1) + fl (sqrt (fl (square64 1 - fl (fl (square64 1 - square64 50) * mcsc2 alpha))))) / mcsc2 alpha).
Let C64 := fl (d64 / mtan alpha).
Let D64 := fl (1 + d64).
Lemma square_exact (z : Z) : (Z.abs (z * z) < 2 ^ 53)%Z -> square64 (IZR z) = IZR (z * z).
Proof. intros H. unfold square64. rewrite <- mult_IZR. apply fl_int, H. Qed.
Lemma tiny_small : tiny <= / 1000000.
Proof. destruct small_300 as [T _]. eapply Rle_trans; [exact T|]. apply Rinv_le_contravar; [lra|]. apply Rle_trans with (2 ^ 20); [lra|apply Rle_pow; [lra|lia]]. Qed.
Lemma base_near : near e 16 (dd alpha) d64 (dd alpha).
Proof.
  pose proof csc_range as Cr. destruct Hl as [L1 _]. fold c in L1. pose proof (e_pos e Ue) as P. pose proof tiny_small as Ts. pose proof corner_facts as (_ & _ & _ & Dr).
  unfold d64. rewrite (square_exact 1), (square_exact 50) by reflexivity. change (1 * 1)%Z with 1%Z. change (50 * 50)%Z with 2500%Z. replace (1 - 2500) with (IZR (- 2499)) by lra. rewrite (fl_int (- 2499)) by reflexivity.
  assert (N0 : near e 4 c (mcsc2 alpha) c) by (split; [exact L1|rewrite Rabs_pos_eq; lra]).
  assert (N1 : near e 4 (2499 * c) (-2499 * mcsc2 alpha) (-2499 * c)). { pose proof (near_scale e 4 c _ _ (-2499) N0) as H. rewrite (Rabs_left (-2499)) in H by lra. replace (- -2499) with 2499 in H by ring. exact H. }
  nfl N1 N2. assert (N3 : near e (26 / 5) (1 + 2499 * c) (1 - fl (-2499 * mcsc2 alpha)) (1 + 2499 * c)).
  { destruct N2 as [A B]. split; [|rewrite Rabs_pos_eq; lra]. replace (1 - fl (-2499 * mcsc2 alpha) - (1 + 2499 * c)) with (- (fl (-2499 * mcsc2 alpha) - -2499 * c)) by ring. rewrite Rabs_Ropp. eapply Rle_trans; [exact A|]. assert (0 <= e) by lra. nra. }
  nfl N3 N4. set (v := fl (1 - _)) in *. set (q := sqrt (1 + 2499 * c)). assert (V0 : 0 < 1 + 2499 * c) by lra.
  destruct N4 as [A4 _]. assert (Vv : 0 <= v). { apply Rabs_le_iff in A4. assert ((26 / 5 + 6 / 5) * e * (1 + 2499 * c) <= / 2 * (1 + 2499 * c)) by (apply Rmult_le_compat_r; lra). lra. }
  pose proof (sqrt_near e _ _ _ V0 Vv A4) as A5. fold q in A5. assert (Q70 : 70 <= q). { unfold q. replace 70 with (sqrt (70 * 70)) by (apply sqrt_square; lra). apply sqrt_le_1_alt. lra. }
  assert (N5 : near e (32 / 5) q (sqrt v) q) by (split; [eapply Rle_trans; [exact A5|]; right; field|rewrite Rabs_pos_eq; lra]). nfl N5 N6.
  assert (N7 : near e (39 / 5) (q - 1) (- (1) + fl (sqrt v)) (q - 1)). { destruct N6 as [A _]. split; [|rewrite Rabs_pos_eq; lra]. replace (- (1) + fl (sqrt v) - (q - 1)) with (fl (sqrt v) - q) by ring. eapply Rle_trans; [exact A|]. assert (0 <= e * (q - 70)) by (apply Rmult_le_pos; lra). nra. }
  nfl N7 N8. pose proof (near_div e (39 / 5 + 6 / 5) 4 _ _ _ _ c P ltac:(lra) ltac:(lra) ltac:(lra) N8 ltac:(lra) L1) as N9. assert (Ed : (q - 1) / c = dd alpha) by (unfold dd, q; fold c; unfold Rdiv; ring). rewrite Ed in N9.
  nfl N9 N10. apply (near_le e Ue) with (2 := N10). lra.
Qed.
Lemma C_near : near e 22 C C64 C.
Proof.
  pose proof base_near as B. destruct Hl as [_ L2]. pose proof tan_range as T. pose proof (e_pos e Ue) as P. pose proof corner_facts as (Cr & Ed & _ & Dr). pose proof tiny_small as Ts.
  pose proof (near_div e 16 2 _ _ _ _ (tan alpha) P ltac:(lra) ltac:(lra) ltac:(lra) B ltac:(lra) L2) as N. assert (E : dd alpha / tan alpha = C) by (rewrite Ed; field; lra). rewrite E in N. nfl N N'. apply (near_le e Ue) with (2 := N'). lra.
Qed.
Lemma D_near : Rabs (D64 - D) <= 900 * e.
Proof.
  pose proof base_near as [B _]. pose proof (e_pos e Ue) as P. pose proof corner_facts as (Cr & Ed & _ & Dr). pose proof tiny_small as Ts.
  assert (N : near e 16 D (1 + d64) D). { unfold D. split; [|rewrite Rabs_pos_eq; lra]. replace (1 + d64 - (1 + dd alpha)) with (d64 - dd alpha) by ring. eapply Rle_trans; [exact B|]. nra. }
  assert (TD : tiny <= D) by (unfold D; lra). nfl N N'. destruct N' as [N' _]. eapply Rle_trans; [exact N'|]. assert (D <= 50) by (unfold D; lra). nra.
Qed.
(** The sloping edge of a shade, at a point between its ends. *)
Let l p := 1 + (p - 93 / 4) * ((D - 1) / (C - 93 / 4)).
Let l64 p := line_equation64 (93 / 4, 1) (C64, D64) p.
Lemma edge_near B p pp : 50 <= B -> Rabs (pp - p) <= 10 * e * B -> 700 * e * B <= 9 -> 93 / 4 < p < C -> Rabs (l64 pp - l p) <= 700 * e * B.
Proof.
  intros HB Hp HeB Hin. pose proof (e_pos e Ue) as P. pose proof corner_facts as (Cr & _ & _ & Dr). pose proof C_near as [NC _]. pose proof D_near as ND. pose proof tiny_small as Ts. pose proof tiny_pos as Tp.
  assert (NC' : Rabs (C64 - C) <= 1100 * e) by (eapply Rle_trans; [exact NC|]; nra).
  assert (St : forall z y b, Rabs (z - y) <= b -> Rabs y <= 150 -> b <= 10 -> Rabs (fl z - y) <= b + 161 * e).
  { intros z y b H1 H2 H3. replace (fl z - y) with ((fl z - z) + (z - y)) by ring. eapply Rle_trans; [apply Rabs_triang|]. pose proof (fl_err e z Ue) as F. assert (Rabs z <= 160). { replace z with ((z - y) + y) by ring. eapply Rle_trans; [apply Rabs_triang|]. lra. } assert (e * (Rabs z + tiny / 100) <= e * 161) by (apply Rmult_le_compat_l; lra). lra. }
  assert (eB : 50 * e <= e * B) by nra. assert (D1 : D - 1 = dd alpha) by (unfold D; ring). unfold l64, l, line_equation64. rewrite D1.
  pose proof (St (D64 - 1) (dd alpha) (900 * e)) as S1. replace (D64 - 1 - dd alpha) with (D64 - D) in S1 by (unfold D; ring). specialize (S1 ND ltac:(rewrite Rabs_pos_eq; lra) ltac:(lra)). set (n64 := fl (D64 - 1)) in *.
  pose proof (St (C64 - 93 / 4) (C - 93 / 4) (1100 * e)) as S2. replace (C64 - 93 / 4 - (C - 93 / 4)) with (C64 - C) in S2 by ring. specialize (S2 NC' ltac:(rewrite Rabs_pos_eq; lra) ltac:(lra)). set (g64 := fl (C64 - 93 / 4)) in *.
  pose proof (St (pp - 93 / 4) (p - 93 / 4) (10 * e * B)) as S3. replace (pp - 93 / 4 - (p - 93 / 4)) with (pp - p) in S3 by ring. specialize (S3 Hp ltac:(rewrite Rabs_pos_eq; lra) ltac:(lra)). set (p64 := fl (pp - 93 / 4)) in *.
  set (g := C - 93 / 4) in *. set (X := p - 93 / 4) in *. assert (G : 10 <= g <= 27) by (unfold g; lra). assert (HX : 0 < X <= 27) by (unfold X; lra). assert (HB7 : 670 * e * B <= 10) by lra. set (d := dd alpha) in *.
  assert (s5 : 0 <= d / g <= 5). { split; [apply Rmult_le_pos; [lra|left; apply Rinv_0_lt_compat; lra]|]. apply Rmult_le_reg_r with g; [lra|]. unfold Rdiv. rewrite Rmult_assoc, Rinv_l by lra. lra. } set (s := d / g) in *.
  apply Rabs_le_iff in S2 as S2'. assert (g9 : 9 <= g64) by lra. assert (I9 : 0 < / g64 <= / 9) by (split; [apply Rinv_0_lt_compat; lra|apply Rinv_le_contravar; lra]).
  assert (S4 : Rabs (n64 / g64 - s) <= 860 * e).
  { assert (E : d = s * g) by (unfold s; field; lra). replace (n64 / g64 - s) with (((n64 - d) + s * (g - g64)) * / g64) by (rewrite E at 1; field; lra). rewrite Rabs_mult, (Rabs_pos_eq (/ g64)) by lra.
    assert (Rabs (n64 - d + s * (g - g64)) <= 7400 * e). { eapply Rle_trans; [apply Rabs_triang|]. rewrite Rabs_mult, (Rabs_pos_eq s), (Rabs_minus_sym g g64) by lra. assert (s * Rabs (g64 - g) <= 5 * (1100 * e + 161 * e)) by (apply Rmult_le_compat; [lra|apply Rabs_pos|lra|exact S2]). lra. }
    apply Rle_trans with (7400 * e * / 9); [|lra]. apply Rmult_le_compat; [apply Rabs_pos|lra|assumption|lra]. }
  pose proof (St (n64 / g64) s (860 * e) S4 ltac:(rewrite Rabs_pos_eq; lra) ltac:(lra)) as S5. set (s64 := fl (n64 / g64)) in *.
  assert (P29 : Rabs p64 <= 29). { replace p64 with ((p64 - X) + X) by ring. eapply Rle_trans; [apply Rabs_triang|]. rewrite (Rabs_pos_eq X) by lra. lra. }
  assert (S6 : Rabs (s64 * p64 - s * X) <= 670 * e * B).
  { replace (s64 * p64 - s * X) with ((s64 - s) * p64 + s * (p64 - X)) by ring. eapply Rle_trans; [apply Rabs_triang|]. rewrite !Rabs_mult, (Rabs_pos_eq s) by lra.
    assert (Rabs (s64 - s) * Rabs p64 <= (860 * e + 161 * e) * 29) by (apply Rmult_le_compat; try apply Rabs_pos; assumption). assert (s * Rabs (p64 - X) <= 5 * (10 * e * B + 161 * e)) by (apply Rmult_le_compat; [lra|apply Rabs_pos|lra|exact S3]). lra. }
  assert (sX : 0 <= s * X <= 135) by (split; [apply Rmult_le_pos; lra|apply Rle_trans with (5 * 27); [apply Rmult_le_compat; lra|lra]]).
  pose proof (St (s64 * p64) (s * X) (670 * e * B) S6 ltac:(rewrite Rabs_pos_eq; lra) HB7) as S7. set (m64 := fl (s64 * p64)) in *.
  pose proof (St (m64 + 1) (1 + X * s) (670 * e * B + 161 * e)) as S8. replace (m64 + 1 - (1 + X * s)) with (m64 - s * X) in S8 by ring. specialize (S8 S7 ltac:(rewrite Rabs_pos_eq; lra) ltac:(lra)). lra.
Qed.

(** ** The mask at a point known up to 10 e B *)
Lemma lt_same a b a' b' t : Rabs (a' - a) + Rabs (b' - b) <= t -> t < Rabs (a - b) -> (a' < b' <-> a < b).
Proof. intros H H'. pose proof (Rltb_same a b a' b' t H H') as Q. rewrite <- !Rltb_true, Q. reflexivity. Qed.
Lemma signed_gap z c0 t : 0 <= c0 -> t < Rabs (Rabs z - c0) -> t < Rabs (z - c0) /\ t < Rabs (- z - c0).
Proof.
  intros H G. split; (eapply Rlt_le_trans; [exact G|]).
  - eapply Rle_trans; [|apply (Rabs_triang_inv2 z c0)]. rewrite (Rabs_pos_eq c0) by exact H. lra.
  - eapply Rle_trans; [|apply (Rabs_triang_inv2 (- z) c0)]. rewrite Rabs_Ropp, (Rabs_pos_eq c0) by exact H. lra.
Qed.
Variable B : R.
Hypothesis HB : 50 <= B.
Hypothesis HeB : 700 * e * B <= 9.
Lemma shade_iff p q pp qq : Rabs (pp - p) <= 10 * e * B -> Rabs (qq - q) <= 10 * e * B -> 800 * e * B < Rabs (p - 93 / 4) -> 800 * e * B < Rabs (p - C) -> (93 / 4 < p < C -> 800 * e * B < Rabs (Rabs q - l p)) ->
  ((93 / 4 < pp < C64 /\ Rabs qq < l64 pp) <-> (93 / 4 < p < C /\ Rabs q < l p)) /\ (C64 < pp <-> C < p).
Proof.
  intros Hp Hq GA GC GL. pose proof (e_pos e Ue) as P. pose proof corner_facts as (Cr & _). pose proof C_near as [NC _]. assert (eB : 50 * e <= e * B) by nra.
  assert (NC' : Rabs (C64 - C) <= 1100 * e) by (eapply Rle_trans; [exact NC|]; nra).
  assert (I1 : 93 / 4 < pp <-> 93 / 4 < p) by (apply (lt_same _ _ _ _ (800 * e * B)); [replace (93 / 4 - 93 / 4) with 0 by ring; rewrite Rabs_R0; lra|rewrite Rabs_minus_sym; exact GA]).
  assert (I2 : pp < C64 <-> p < C) by (apply (lt_same _ _ _ _ (800 * e * B)); [lra|exact GC]).
  assert (I3 : C64 < pp <-> C < p) by (apply (lt_same _ _ _ _ (800 * e * B)); [lra|rewrite Rabs_minus_sym; exact GC]).
  split; [|exact I3]. rewrite I1, I2. destruct (Rlt_dec (93 / 4) p) as [L1|L1]; [|tauto]. destruct (Rlt_dec p C) as [L2|L2]; [|tauto].
  assert (I4 : Rabs qq < l64 pp <-> Rabs q < l p); [|tauto]. apply (lt_same _ _ _ _ (800 * e * B)); [|apply GL; split; assumption]. pose proof (edge_near B p pp HB Hp HeB (conj L1 L2)) as EN. pose proof (Rabs_triang_inv2 qq q). lra.
Qed.
Let circ64 z := fl (sqrt (Rabs (fl (square64 50 - square64 z)))).
Lemma circ_in x y xx yy : near e 10 B xx x -> Rabs (yy - y) <= 10 * e * B -> x ^ 2 + y ^ 2 + 800 * e * B ^ 2 < 50 ^ 2 -> Rabs yy < circ64 xx /\ Rabs xx < 50.
Proof.
  intros Gx Gy In. pose proof (e_pos e Ue) as P. pose proof tiny_small as Ts. pose proof tiny_pos as Tp. pose proof (pow2_ge_0 x) as X0. pose proof (pow2_ge_0 y) as Y0.
  assert (TBB : tiny <= B * B) by nra. assert (Sq : Rabs (square64 xx - x * x) <= 111 / 5 * e * (B * B)).
  { pose proof (near_mul e Ue 10 10 B B xx x xx x ltac:(lra) ltac:(lra) Gx Gx) as M. apply near_fl in M; [|exact Ue|exact E1|exact TBB|lra]. destruct M as [M _]. eapply Rle_trans; [exact M|]. right. field. }
  destruct Gx as [Gx _]. set (b := e * (B * B)). assert (BB : 50 * 50 <= B * B) by nra. assert (BB2 : 50 * B <= B * B) by nra. assert (Hb : 2500 * e <= b) by (unfold b; assert (e * (50 * 50) <= e * (B * B)) by (apply Rmult_le_compat_l; lra); lra). assert (Hb2 : e * B * 50 <= b) by (unfold b; assert (e * (50 * B) <= e * (B * B)) by (apply Rmult_le_compat_l; lra); lra). replace (e * B ^ 2) with b in * by (unfold b; ring). replace (800 * e * B ^ 2) with (800 * b) in In by (unfold b; ring). replace (111 / 5 * e * (B * B)) with (111 / 5 * b) in Sq by (unfold b; ring).
  assert (X50 : Rabs x <= 50) by (apply Rabs_le; split; nra). assert (Y50 : Rabs y <= 50) by (apply Rabs_le; split; nra). pose proof (Rabs_pos x). pose proof (Rabs_pos y).
  assert (eB1 : e * B <= / 50) by lra.
  assert (Wide : forall z zz, Rabs (zz - z) <= 10 * e * B -> Rabs z <= 50 -> zz ^ 2 <= z ^ 2 + 25 * b).
  { intros z zz H1 H2. replace (zz ^ 2) with (z ^ 2 + (zz - z) * (2 * z + (zz - z))) by ring. apply Rplus_le_compat_l. eapply Rle_trans; [apply Rle_abs|]. rewrite Rabs_mult. apply Rle_trans with (10 * e * B * 101); [|lra]. apply Rmult_le_compat; try apply Rabs_pos; [exact H1|]. eapply Rle_trans; [apply Rabs_triang|]. rewrite Rabs_mult, (Rabs_pos_eq 2) by lra. lra. }
  pose proof (Wide x xx Gx X50) as Wx. split.
  - unfold circ64. rewrite (square_exact 50) by reflexivity. change (50 * 50)%Z with 2500%Z. set (v := fl (2500 - square64 xx)). replace (x * x) with (x ^ 2) in Sq by ring.
    assert (V : Rabs (v - (2500 - x ^ 2)) <= 25 * b).
    { unfold v. replace (fl (2500 - square64 xx) - (2500 - x ^ 2)) with ((fl (2500 - square64 xx) - (2500 - square64 xx)) + - (square64 xx - x ^ 2)) by ring. eapply Rle_trans; [apply Rabs_triang|]. rewrite Rabs_Ropp. pose proof (fl_err e (2500 - square64 xx) Ue) as F.
      assert (Rabs (2500 - square64 xx) <= 2600). { apply Rabs_le_iff in Sq. apply Rabs_le. lra. } assert (e * (Rabs (2500 - square64 xx) + tiny / 100) <= e * 2601) by (apply Rmult_le_compat_l; lra). lra. }
    apply Rabs_le_iff in V. rewrite (Rabs_pos_eq v) by lra. assert (Sv : sqrt v <= 51). { replace 51 with (sqrt (51 * 51)) by (apply sqrt_square; lra). apply sqrt_le_1_alt. lra. } pose proof (sqrt_pos v) as S0.
    pose proof (fl_err e (sqrt v) Ue) as F. rewrite (Rabs_pos_eq (sqrt v)) in F by exact S0. assert (F2 : e * (sqrt v + tiny / 100) <= e * 52) by (apply Rmult_le_compat_l; lra). assert (F3 : Rabs (fl (sqrt v) - sqrt v) <= e * 52) by lra. apply Rabs_le_iff in F3.
    apply Rnot_le_lt. intros Hc. pose proof (Rabs_triang_inv2 yy y) as Ty. assert (Ty2 : Rabs yy <= Rabs y + 10 * e * B). { pose proof (Rle_abs (Rabs yy - Rabs y)). lra. }
    assert (e50 : 50 * e <= e * B) by nra. assert (R1 : sqrt v <= Rabs y + 12 * (e * B)) by lra. assert (R2 : v <= (Rabs y + 12 * (e * B)) ^ 2). { rewrite <- (sqrt_sqrt v) by lra. replace (sqrt v * sqrt v) with (sqrt v ^ 2) by ring. apply pow_incr. lra. }
    assert (R3 : (Rabs y + 12 * (e * B)) ^ 2 <= y ^ 2 + 30 * b). { rewrite <- (pow2_abs y). replace ((Rabs y + 12 * (e * B)) ^ 2) with (Rabs y ^ 2 + 12 * (e * B) * (2 * Rabs y + 12 * (e * B))) by ring. apply Rplus_le_compat_l. apply Rle_trans with (12 * (e * B) * 101); [|lra]. apply Rmult_le_compat_l; [nra|lra]. }
    lra.
  - rewrite <- (Rabs_pos_eq 50) by lra. apply Rsqr_lt_abs_0. unfold Rsqr. nra.
Qed.
Lemma effelsberg_agrees x y xx yy : near e 10 B xx x -> near e 10 B yy y -> clear_effelsberg (800 * e) B C D x y -> block_manual64 50 (13 / 4) 1 20 xx yy = block_manual 50 (13 / 4) 1 20 x y ->
  block_effelsberg64 mcsc2 mtan alpha xx yy = block_effelsberg alpha x y.
Proof.
  intros Gx Gy (Cl & Sh) Hb. pose proof (e_pos e Ue) as P. pose proof corner_facts as (Cr & _ & _ & Dr). assert (Hsin : sin alpha <> 0) by lra.
  assert (T23 : fl (13 / 4 + 20) = 93 / 4) by exact fl_leg.
  unfold block_effelsberg64. cbv zeta. match goal with |- assign ?c8 0 (assign ?c7 0 (assign ?c6 0 (assign ?c5 0 (assign ?c4 0 (assign ?c3 0 (assign ?c2 0 (assign ?c1 0 ?b0))))))) = _ => change b0 with (block_manual64 50 (13 / 4) 1 20 xx yy) end.
  rewrite Hb, T23. fold d64. fold C64 D64. fold (circ64 xx) (circ64 yy). rewrite !line64_opp, !line64_flip. fold (l64 xx) (l64 yy) (l64 (- xx)) (l64 (- yy)).
  destruct (block_manual_iff 50 (13 / 4) 1 20 x y) as [V0 E0]. replace (13 / 4 + 20) with (93 / 4) in E0 by field.
  destruct (block_effelsberg_iff alpha x y Hsin) as [W0 W1]. fold C D in W1.
  match goal with |- assign ?c8 0 (assign ?c7 0 (assign ?c6 0 (assign ?c5 0 (assign ?c4 0 (assign ?c3 0 (assign ?c2 0 (assign ?c1 0 (block_manual _ _ _ _ _ _)))))))) = _ =>
    destruct (assign0 c1 _ V0) as [V1 E1']; destruct (assign0 c2 _ V1) as [V2 E2']; destruct (assign0 c3 _ V2) as [V3 E3'];
    destruct (assign0 c4 _ V3) as [V4 E4']; destruct (assign0 c5 _ V4) as [V5 E5']; destruct (assign0 c6 _ V5) as [V6 E6'];
    destruct (assign0 c7 _ V6) as [V7 E7']; destruct (assign0 c8 _ V7) as [V8 E8']
  end.
  apply two_valued; [exact V8|exact W0|]. rewrite W1, E8', E7', E6', E5', E4', E3', E2', E1', E0, !not_true. clear E8' E7' E6' E5' E4' E3' E2' E1' V8 V7 V6 V5 V4 V3 V2 V1 V0 W0 W1 E0.
  destruct (Rlt_dec (x ^ 2 + y ^ 2) (50 ^ 2)) as [In|Out]; [|unfold annulus; tauto].
  destruct Cl as (C1 & C2 & C3). rewrite Rabs_left in C1 by lra. assert (In8 : x ^ 2 + y ^ 2 + 800 * e * B ^ 2 < 50 ^ 2) by lra.
  destruct (circ_in x y xx yy Gx (proj1 Gy) In8) as [K1 K2]. destruct (circ_in y x yy xx Gy (proj1 Gx) ltac:(lra)) as [K3 K4]. apply Rabs_lt_iff in K1, K2, K3, K4. destruct Gx as [Gx _], Gy as [Gy _].
  assert (Neg : forall a a', Rabs (a' - a) <= 10 * e * B -> Rabs (- a' - - a) <= 10 * e * B). { intros a a' H. replace (- a' - - a) with (- (a' - a)) by ring. rewrite Rabs_Ropp. exact H. }
  assert (Q : forall p q pp qq, (p = x /\ q = y) \/ (p = y /\ q = x) -> Rabs (pp - p) <= 10 * e * B -> Rabs (qq - q) <= 10 * e * B ->
    (((93 / 4 < pp < C64 /\ Rabs qq < l64 pp) <-> (93 / 4 < p < C /\ Rabs q < l p)) /\ (C64 < pp <-> C < p)) /\ (((93 / 4 < - pp < C64 /\ Rabs qq < l64 (- pp)) <-> (93 / 4 < - p < C /\ Rabs q < l (- p))) /\ (C64 < - pp <-> C < - p))).
  { intros p q pp qq Hpq Hp Hq. destruct (Sh p q Hpq) as [S1 S2]. assert (S0 : 800 * e * B < Rabs (Rabs p - 93 / 4)). { apply C3; [destruct Hpq as [[-> _]|[-> _]]; auto|left; field]. }
    destruct (signed_gap p (93 / 4) _ ltac:(lra) S0) as [A1 A2]. destruct (signed_gap p C _ ltac:(lra) S1) as [A3 A4]. split; apply shade_iff; try assumption; try (apply Neg; assumption).
    - intros Hin. unfold l. rewrite (Rabs_pos_eq p) in S2 by lra. apply S2. exact Hin.
    - intros Hin. unfold l. rewrite (Rabs_left p) in S2 by lra. apply S2. exact Hin. }
  destruct (Q x y xx yy (or_introl (conj eq_refl eq_refl)) Gx Gy) as [[Q1 Q2] [Q3 Q4]]. destruct (Q y x yy xx (or_intror (conj eq_refl eq_refl)) Gy Gx) as [[Q5 Q6] [Q7 Q8]]. clear Q Sh C3.
  rewrite !Rabs_lt_iff in Q1, Q3, Q5, Q7. rewrite !andb_true_iff, !Rltb_true. unfold shades, shade. fold (l x) (l y) (l (- x)) (l (- y)). rewrite !Rabs_lt_iff.
  rewrite <- Q1, <- Q2, <- Q3, <- Q4, <- Q5, <- Q6, <- Q7, <- Q8. clear -K1 K2 K3 K4.
  assert (F : forall z, (z < - C64 <-> C64 < - z) /\ (z < - (93 / 4) <-> 93 / 4 < - z) /\ (- C64 < z <-> - z < C64)) by (intros z; repeat split; lra).
  destruct (F xx) as (F1 & F2 & F3), (F yy) as (F4 & F5 & F6). rewrite F1, F2, F3, F4, F5, F6. clear F F1 F2 F3 F4 F5 F6. tauto.
Qed.
End Corner.
