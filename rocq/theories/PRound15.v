(** Rounding errors of the interpolation. *)
From Coq Require Import Reals List Lra Lia ZArith.
From Verif Require Import PyBase PyLib Sums Num MMath MAperture MRad MCore SCore SFloat MFloat MFloat2 MFloat3 MFloat4 MFloat5 SRound SRound2 SRound3 POrder64 PRound PRound4 PRound5 PRound9 PRound10 PResid PSim.
Import ListNotations.
Open Scope R_scope.

(** ** Piecewise linear functions *)
Definition lin (P : nat -> R) (i : nat) (t : R) : R := (1 - t) * P i + t * P (i + 1)%nat.
Lemma lin_lip (P : nat -> R) V i t i' t' d : 0 <= t <= 1 -> 0 <= t' <= 1 -> Rabs (P (i + 1)%nat - P i) <= V -> Rabs (P (i' + 1)%nat - P i') <= V ->
  Rabs (INR i' + t' - (INR i + t)) <= d -> d < 1 -> Rabs (lin P i' t' - lin P i t) <= V * d.
Proof.
  assert (W : forall i t i' t', (i <= i')%nat -> 0 <= t <= 1 -> 0 <= t' <= 1 -> Rabs (P (i + 1)%nat - P i) <= V -> Rabs (P (i' + 1)%nat - P i') <= V ->
    Rabs (INR i' + t' - (INR i + t)) <= d -> d < 1 -> Rabs (lin P i' t' - lin P i t) <= V * d).
  { clear. intros i t i' t' Hi Ht Ht' V1 V2 Hd D1. assert (V0 : 0 <= V) by (pose proof (Rabs_pos (P (i + 1)%nat - P i)); lra). destruct (Nat.eq_dec i' i) as [->|N1].
    - replace (INR i + t' - (INR i + t)) with (t' - t) in Hd by ring. unfold lin. replace ((1 - t') * P i + t' * P (i + 1)%nat - ((1 - t) * P i + t * P (i + 1)%nat)) with ((t' - t) * (P (i + 1)%nat - P i)) by ring. rewrite Rabs_mult, (Rmult_comm V). apply Rmult_le_compat; try apply Rabs_pos; assumption.
    - destruct (Nat.eq_dec i' (i + 1)) as [->|N2].
      + rewrite plus_INR in Hd. cbn [INR] in Hd. rewrite Rabs_pos_eq in Hd by lra. unfold lin.
        replace ((1 - t') * P (i + 1)%nat + t' * P (i + 1 + 1)%nat - ((1 - t) * P i + t * P (i + 1)%nat)) with (t' * (P (i + 1 + 1)%nat - P (i + 1)%nat) + (1 - t) * (P (i + 1)%nat - P i)) by ring.
        eapply Rle_trans; [apply Rabs_triang|]. rewrite !Rabs_mult, (Rabs_pos_eq t'), (Rabs_pos_eq (1 - t)) by lra. assert (t' * Rabs (P (i + 1 + 1)%nat - P (i + 1)%nat) <= t' * V) by (apply Rmult_le_compat_l; lra). assert ((1 - t) * Rabs (P (i + 1)%nat - P i) <= (1 - t) * V) by (apply Rmult_le_compat_l; lra).
        assert ((t' + (1 - t)) * V <= d * V) by (apply Rmult_le_compat_r; lra). lra.
      + exfalso. assert (H : (i + 2 <= i')%nat) by lia. apply le_INR in H. rewrite plus_INR in H. cbn [INR] in H. apply Rabs_le_iff in Hd. lra. }
  intros Ht Ht' V1 V2 Hd D1. destruct (le_ge_dec i i') as [H|H]; [apply W; assumption|]. rewrite Rabs_minus_sym. apply W; try assumption. rewrite Rabs_minus_sym. exact Hd.
Qed.
Lemma lin_bound (P Q : nat -> R) i t e : 0 <= t <= 1 -> Rabs (P i - Q i) <= e -> Rabs (P (i + 1)%nat - Q (i + 1)%nat) <= e -> Rabs (lin P i t - lin Q i t) <= e.
Proof.
  intros Ht A B. unfold lin. replace ((1 - t) * P i + t * P (i + 1)%nat - ((1 - t) * Q i + t * Q (i + 1)%nat)) with ((1 - t) * (P i - Q i) + t * (P (i + 1)%nat - Q (i + 1)%nat)) by ring.
  eapply Rle_trans; [apply Rabs_triang|]. rewrite !Rabs_mult, (Rabs_pos_eq t), (Rabs_pos_eq (1 - t)) by lra. assert ((1 - t) * Rabs (P i - Q i) <= (1 - t) * e) by (apply Rmult_le_compat_l; lra). assert (t * Rabs (P (i + 1)%nat - Q (i + 1)%nat) <= t * e) by (apply Rmult_le_compat_l; lra). lra.
Qed.
Lemma lin_range (P : nat -> R) i t lo hi : 0 <= t <= 1 -> lo <= P i <= hi -> lo <= P (i + 1)%nat <= hi -> lo <= lin P i t <= hi.
Proof. intros Ht A B. unfold lin. assert ((1 - t) * lo <= (1 - t) * P i <= (1 - t) * hi) by (split; apply Rmult_le_compat_l; lra). assert (t * lo <= t * P (i + 1)%nat <= t * hi) by (split; apply Rmult_le_compat_l; lra). lra. Qed.

(** ** Cells of a rounded grid *)
Lemma quotient64 a D h : 0 <= a <= D -> h / 2 <= D -> tiny <= h -> let t := fl (fl a / fl D) in 0 <= t <= 1 /\ Rabs (t - a / D) <= 4 * u.
Proof.
  intros Ha HD Th. cbv zeta. pose proof tiny_pos as Tp. pose proof roundoff_pos as Up. assert (U1 : u <= / 1000). { unfold u. apply Rinv_le_contravar; [lra|]. apply Rle_trans with (2 ^ 10); [lra|apply Rle_pow; [lra|lia]]. }
  assert (D0 : 0 < D) by lra. pose proof (fl_err u a (Rle_refl _)) as Fa. pose proof (fl_err u D (Rle_refl _)) as Fd. rewrite (Rabs_pos_eq a) in Fa by lra. rewrite (Rabs_pos_eq D) in Fd by lra. assert (TD : tiny / 100 <= D / 50) by lra.
  assert (Fd' : Rabs (fl D - D) <= 51 / 50 * (u * D)). { eapply Rle_trans; [exact Fd|]. replace (51 / 50 * (u * D)) with (u * (51 / 50 * D)) by ring. apply Rmult_le_compat_l; lra. }
  assert (Fa' : Rabs (fl a - a) <= 51 / 50 * (u * D)). { eapply Rle_trans; [exact Fa|]. replace (51 / 50 * (u * D)) with (u * (51 / 50 * D)) by ring. apply Rmult_le_compat_l; lra. }
  assert (uD : 0 < u * D <= D / 1000). { split; [apply Rmult_lt_0_compat; lra|]. replace (D / 1000) with (/ 1000 * D) by field. apply Rmult_le_compat_r; lra. }
  apply Rabs_le_iff in Fd' as Gd. assert (F0 : 0 < fl D) by lra. assert (A0 : 0 <= fl a) by (rewrite <- fl_0; apply fl_le; lra). assert (A1 : fl a <= fl D) by (apply fl_le; lra).
  assert (Q : 0 <= fl a / fl D <= 1). { split; [apply Rmult_le_pos; [exact A0|left; apply Rinv_0_lt_compat, F0]|]. apply Rmult_le_reg_r with (fl D); [exact F0|]. unfold Rdiv. rewrite Rmult_assoc, Rinv_l by lra. lra. }
  assert (Tq : Rabs (fl a / fl D - a / D) <= 205 / 100 * u).
  { replace (fl a / fl D - a / D) with (((fl a - a) + a / D * (D - fl D)) / fl D) by (field; lra). unfold Rdiv at 1. rewrite Rabs_mult, (Rabs_pos_eq (/ fl D)) by (left; apply Rinv_0_lt_compat, F0). apply Rmult_le_reg_r with (fl D); [exact F0|]. rewrite Rmult_assoc, Rinv_l, Rmult_1_r by lra.
    eapply Rle_trans; [apply Rabs_triang|]. rewrite Rabs_mult. assert (R01 : Rabs (a / D) <= 1). { rewrite Rabs_pos_eq by (apply Rmult_le_pos; [lra|left; apply Rinv_0_lt_compat, D0]). apply Rmult_le_reg_r with D; [exact D0|]. unfold Rdiv. rewrite Rmult_assoc, Rinv_l by lra. lra. }
    rewrite (Rabs_minus_sym D). assert (Rabs (a / D) * Rabs (fl D - D) <= 1 * (51 / 50 * (u * D))) by (apply Rmult_le_compat; try apply Rabs_pos; assumption). assert (u * (998 / 1000 * D) <= u * fl D) by (apply Rmult_le_compat_l; lra). lra. }
  split; [split; [rewrite <- fl_0; apply fl_le; lra|rewrite <- fl_1; apply fl_le; lra]|].
  pose proof (fl_err u (fl a / fl D) (Rle_refl _)) as Fq. rewrite (Rabs_pos_eq (fl a / fl D)) in Fq by lra. pose proof tiny_1. assert (u * (fl a / fl D + tiny / 100) <= u * (101 / 100)) by (apply Rmult_le_compat_l; lra).
  replace (fl (fl a / fl D) - a / D) with ((fl (fl a / fl D) - fl a / fl D) + (fl a / fl D - a / D)) by ring. eapply Rle_trans; [apply Rabs_triang|]. lra.
Qed.

Section Cells.
Variables (N : nat) (h c ge : R) (g g64 : list R).
Hypothesis N2 : (2 <= N)%nat.
Hypothesis Hh : tiny <= h.
Hypothesis Hge : 0 <= ge <= / 100.
Hypothesis Lg : length g = N.
Hypothesis Lg64 : length g64 = N.
Hypothesis Hg : forall k, (k < N)%nat -> nth k g 0 = (INR k - c) * h.
Hypothesis Hg64 : forall k, (k < N)%nat -> Rabs (nth k g64 0 - nth k g 0) <= ge * h.

Lemma h_pos : 0 < h. Proof. pose proof tiny_pos. lra. Qed.
Lemma g_incr : increasing g.
Proof. intros a b H. rewrite Lg in H. rewrite !Hg by lia. apply Rmult_lt_compat_r; [exact h_pos|]. assert (INR a < INR b) by (apply lt_INR; lia). lra. Qed.
Lemma g64_gap a b : (a < b < N)%nat -> (INR b - INR a) * h - 2 * ge * h <= nth b g64 0 - nth a g64 0 <= (INR b - INR a) * h + 2 * ge * h.
Proof. intros H. pose proof (Hg64 a ltac:(lia)) as A. pose proof (Hg64 b ltac:(lia)) as B. rewrite Hg in A, B by lia. apply Rabs_le_iff in A. apply Rabs_le_iff in B. lra. Qed.
Lemma g64_incr : increasing g64.
Proof. intros a b H. rewrite Lg64 in H. pose proof (g64_gap a b H) as G. assert (I : (a + 1 <= b)%nat) by lia. apply le_INR in I. rewrite plus_INR in I. cbn [INR] in I. pose proof h_pos as P. assert (1 * h <= (INR b - INR a) * h) by (apply Rmult_le_compat_r; lra). assert (ge * h <= / 100 * h) by (apply Rmult_le_compat_r; lra). lra. Qed.

Definition tx (x : R) : R := (x - nth (find_index g x) g 0) / (nth (find_index g x + 1) g 0 - nth (find_index g x) g 0).
Definition tx64 (x : R) : R := let i := find_index g64 x in fl (fl (x - nth i g64 0) / fl (nth (i + 1) g64 0 - nth i g64 0)).
Lemma cell x : in_bounds g x = true -> in_bounds g64 x = true ->
  (find_index g x + 1 < N)%nat /\ (find_index g64 x + 1 < N)%nat /\ 0 <= tx x <= 1 /\ 0 <= tx64 x <= 1 /\ Rabs (INR (find_index g64 x) + tx64 x - (INR (find_index g x) + tx x)) <= 4 * ge + 4 * u.
Proof.
  intros B B64. destruct (find_cell g x g_incr ltac:(lia) B) as [I1 I2]. destruct (find_cell g64 x g64_incr ltac:(lia) B64) as [J1 J2]. rewrite Lg in I1. rewrite Lg64 in J1.
  unfold tx, tx64. set (i := find_index g x) in *. set (j := find_index g64 x) in *. cbv zeta. split; [exact I1|]. split; [exact J1|]. pose proof h_pos as P.
  pose proof (g64_gap j (j + 1) ltac:(lia)) as G. rewrite plus_INR in G. cbn [INR] in G. assert (GH : 0 <= ge * h <= / 100 * h) by (split; [apply Rmult_le_pos; lra|apply Rmult_le_compat_r; lra]).
  rewrite !Hg in I2 by lia. rewrite !Hg by lia. rewrite plus_INR in *. cbn [INR] in *. set (D := nth (j + 1) g64 0 - nth j g64 0) in *. assert (D0 : 0 < D) by lra.
  destruct (quotient64 (x - nth j g64 0) D h) as [Q1 Q2]; [unfold D; lra|lra|exact Hh|].
  assert (Ex : INR i + (x - (INR i - c) * h) / ((INR i + 1 - c) * h - (INR i - c) * h) = x / h + c) by (field; lra). rewrite Ex.
  split. { replace ((x - (INR i - c) * h) / ((INR i + 1 - c) * h - (INR i - c) * h)) with (x / h + c - INR i) by lra. split.
    - apply Rmult_le_reg_r with h; [exact P|]. unfold Rdiv. rewrite Rmult_minus_distr_r, Rmult_plus_distr_r, Rmult_assoc, Rinv_l by lra. lra.
    - apply Rmult_le_reg_r with h; [exact P|]. unfold Rdiv. rewrite Rmult_minus_distr_r, Rmult_plus_distr_r, Rmult_assoc, Rinv_l by lra. lra. }
  split; [exact Q1|]. set (s := fl _) in *. set (tau := (x - nth j g64 0) / D) in *.
  assert (T01 : 0 <= tau <= 1). { unfold tau. split; [apply Rmult_le_pos; [lra|left; apply Rinv_0_lt_compat, D0]|]. apply Rmult_le_reg_r with D; [exact D0|]. unfold Rdiv. rewrite Rmult_assoc, Rinv_l by lra. unfold D. lra. }
  assert (E2 : Rabs (INR j + tau - (x / h + c)) <= 4 * ge).
  { pose proof (Hg64 j ltac:(lia)) as Hj. rewrite Hg in Hj by lia. set (er := nth j g64 0 - (INR j - c) * h) in *. assert (Xe : x = tau * D + nth j g64 0) by (unfold tau; field; lra).
    assert (Xh : x / h + c = INR j + (tau * D + er) / h). { replace (nth j g64 0) with ((INR j - c) * h + er) in Xe by (unfold er; ring). rewrite Xe. field. lra. }
    rewrite Xh. replace (INR j + tau - (INR j + (tau * D + er) / h)) with ((tau * (h - D) - er) / h) by (field; lra). unfold Rdiv. rewrite Rabs_mult, (Rabs_pos_eq (/ h)) by (left; apply Rinv_0_lt_compat, P). apply Rmult_le_reg_r with h; [exact P|]. rewrite Rmult_assoc, Rinv_l, Rmult_1_r by lra.
    replace (tau * (h - D) - er) with (tau * (h - D) + - er) by ring. eapply Rle_trans; [apply Rabs_triang|]. rewrite Rabs_Ropp, Rabs_mult, (Rabs_pos_eq tau) by lra. assert (HD : Rabs (h - D) <= 2 * (ge * h)) by (apply Rabs_le; lra). assert (tau * Rabs (h - D) <= 1 * (2 * (ge * h))) by (apply Rmult_le_compat; try apply Rabs_pos; lra). lra. }
  replace (INR j + s - (x / h + c)) with ((s - tau) + (INR j + tau - (x / h + c))) by ring. eapply Rle_trans; [apply Rabs_triang|]. lra.
Qed.

Lemma corners64 (P00 P01 P10 P11 s t W : R) : tiny <= W -> 0 <= s <= 1 -> 0 <= t <= 1 -> Rabs P00 <= W -> Rabs P01 <= W -> Rabs P10 <= W -> Rabs P11 <= W ->
  Rabs (fl (fl (fl (fl (P00 * fl (fl (1 - s) * fl (1 - t))) + fl (P01 * fl (fl (1 - s) * t))) + fl (P10 * fl (s * fl (1 - t)))) + fl (P11 * fl (s * t)))
    - ((1 - s) * (1 - t) * P00 + (1 - s) * t * P01 + s * (1 - t) * P10 + s * t * P11)) <= 37 * u * W.
Proof.
  intros TW Hs Ht B00 B01 B10 B11. pose proof tiny_pos as Tp. pose proof tiny_1 as T1. pose proof roundoff_pos as Up. assert (U1 : u <= / 1000). { unfold u. apply Rinv_le_contravar; [lra|]. apply Rle_trans with (2 ^ 10); [lra|apply Rle_pow; [lra|lia]]. }
  pose proof (Rle_refl u) as Uu.
  assert (One : forall z, 0 <= z <= 1 -> near u (6 / 5) 1 z z). { intros z Hz. apply (near_le u Uu 0); [lra|]. apply near_refl. rewrite Rabs_pos_eq; lra. }
  assert (Com : forall z, 0 <= z <= 1 -> near u (6 / 5) 1 (fl (1 - z)) (1 - z)). { intros z Hz. apply (near_le u Uu (0 + 6 / 5)); [lra|]. apply (near_fl u Uu U1); [exact T1|lra|]. apply near_refl. rewrite Rabs_pos_eq; lra. }
  assert (Wt : forall a b a0 b0, near u (6 / 5) 1 a a0 -> near u (6 / 5) 1 b b0 -> near u 4 1 (fl (a * b)) (a0 * b0)).
  { intros a b a0 b0 Na Nb. apply (near_le u Uu (6 / 5 + 11 / 10 * (6 / 5) + 6 / 5)); [lra|]. apply (near_fl u Uu U1); [exact T1|lra|]. replace 1 with (1 * 1) by ring. apply (near_mul u Uu); [lra|lra|exact Na|exact Nb]. }
  assert (Te : forall p w w0, Rabs p <= W -> near u 4 1 w w0 -> near u (28 / 5) W (fl (p * w)) (w0 * p)).
  { intros p w w0 Bp Nw. apply (near_le u Uu (0 + 11 / 10 * 4 + 6 / 5)); [lra|]. apply (near_fl u Uu U1); [exact TW|lra|]. rewrite (Rmult_comm w0). replace W with (W * 1) by ring. apply (near_mul u Uu); [lra|lra|apply near_refl; exact Bp|exact Nw]. }
  pose proof (Te _ _ _ B00 (Wt _ _ _ _ (Com s Hs) (Com t Ht))) as N00. pose proof (Te _ _ _ B01 (Wt _ _ _ _ (Com s Hs) (One t Ht))) as N01. pose proof (Te _ _ _ B10 (Wt _ _ _ _ (One s Hs) (Com t Ht))) as N10. pose proof (Te _ _ _ B11 (Wt _ _ _ _ (One s Hs) (One t Ht))) as N11.
  assert (S1 : near u (34 / 5) (W + W) (fl (fl (P00 * fl (fl (1 - s) * fl (1 - t))) + fl (P01 * fl (fl (1 - s) * t)))) ((1 - s) * (1 - t) * P00 + (1 - s) * t * P01)).
  { apply (near_le u Uu (28 / 5 + 6 / 5)); [lra|]. apply (near_fl u Uu U1); [lra|lra|]. apply near_add; assumption. }
  set (c1 := fl (fl (P00 * _) + _)) in *. set (e1 := (1 - s) * (1 - t) * P00 + (1 - s) * t * P01) in *.
  assert (S2 : near u 8 (W + W + W) (fl (c1 + fl (P10 * fl (s * fl (1 - t))))) (e1 + s * (1 - t) * P10)).
  { apply (near_le u Uu (34 / 5 + 6 / 5)); [lra|]. apply (near_fl u Uu U1); [lra|lra|]. apply near_add; [exact S1|]. apply (near_le u Uu (28 / 5)); [lra|exact N10]. }
  set (c2 := fl (c1 + _)) in *. set (e2 := e1 + s * (1 - t) * P10) in *.
  assert (S3 : near u (46 / 5) (W + W + W + W) (fl (c2 + fl (P11 * fl (s * t)))) (e2 + s * t * P11)).
  { apply (near_le u Uu (8 + 6 / 5)); [lra|]. apply (near_fl u Uu U1); [lra|lra|]. apply near_add; [exact S2|]. apply (near_le u Uu (28 / 5)); [lra|exact N11]. }
  destruct S3 as [S3 _]. eapply Rle_trans; [exact S3|]. assert (0 <= u * W) by (apply Rmult_le_pos; lra). lra.
Qed.

Lemma interp64_err (vals vals64 : list (list R)) eps top x y : 0 <= eps <= top -> tiny <= top ->
  (forall a b, (a < N)%nat -> (b < N)%nat -> 0 <= nth a (nth b vals []) 0 <= top /\ Rabs (nth a (nth b vals64 []) 0 - nth a (nth b vals []) 0) <= eps) ->
  in_bounds g x = true -> in_bounds g64 x = true -> in_bounds g y = true -> in_bounds g64 y = true ->
  Rabs (interp2_64 g64 g64 vals64 x y - interp2 g g vals x y) <= eps + 8 * ge * top + 82 * u * top.
Proof.
  intros He Ttop HP X X64 Y Y64. pose proof tiny_pos as Tp. pose proof roundoff_pos as Up. assert (U1 : u <= / 1000). { unfold u. apply Rinv_le_contravar; [lra|]. apply Rle_trans with (2 ^ 10); [lra|apply Rle_pow; [lra|lia]]. }
  destruct (cell x X X64) as (I & I' & T & T' & Dx). destruct (cell y Y Y64) as (J & J' & S & S' & Dy).
  unfold interp2_64, interp2. fold (tx64 x) (tx64 y) (tx x) (tx y). set (i := find_index g x) in *. set (i' := find_index g64 x) in *. set (j := find_index g y) in *. set (j' := find_index g64 y) in *. set (t := tx x) in *. set (t' := tx64 x) in *. set (s := tx y) in *. set (s' := tx64 y) in *. cbv zeta.
  set (P := fun a b => nth a (nth b vals []) 0). set (P64 := fun a b => nth a (nth b vals64 []) 0).
  fold (P i j) (P i (j + 1)%nat) (P (i + 1)%nat j) (P (i + 1)%nat (j + 1)%nat). fold (P64 i' j') (P64 i' (j' + 1)%nat) (P64 (i' + 1)%nat j') (P64 (i' + 1)%nat (j' + 1)%nat).
  assert (HP' : forall a b, (a < N)%nat -> (b < N)%nat -> 0 <= P a b <= top /\ Rabs (P64 a b - P a b) <= eps) by exact HP. clearbody P P64. clear HP.
  assert (B : forall a b, (a < N)%nat -> (b < N)%nat -> Rabs (P64 a b) <= 2 * top). { intros a b Ha Hb. destruct (HP' a b Ha Hb) as [Q1 Q2]. apply Rabs_le_iff in Q2. apply Rabs_le. lra. }
  pose proof (corners64 (P64 i' j') (P64 i' (j' + 1)%nat) (P64 (i' + 1)%nat j') (P64 (i' + 1)%nat (j' + 1)%nat) t' s' (2 * top) ltac:(lra) T' S' (B i' j' ltac:(lia) ltac:(lia)) (B i' (j' + 1)%nat ltac:(lia) ltac:(lia)) (B (i' + 1)%nat j' ltac:(lia) ltac:(lia)) (B (i' + 1)%nat (j' + 1)%nat ltac:(lia) ltac:(lia))) as C0.
  set (comp := fl (fl (fl (fl _ + _) + _) + _)) in *.
  assert (F2 : forall (Q : nat -> nat -> R) a b p q, (1 - p) * (1 - q) * Q a b + (1 - p) * q * Q a (b + 1)%nat + p * (1 - q) * Q (a + 1)%nat b + p * q * Q (a + 1)%nat (b + 1)%nat = lin (fun k => lin (Q k) b q) a p) by (intros; unfold lin; ring).
  rewrite F2 in C0. rewrite F2.
  assert (D1 : 4 * ge + 4 * u < 1) by lra. assert (G0 : 0 <= 4 * ge + 4 * u) by lra.
  (* values *)
  assert (E1 : Rabs (lin (fun k => lin (P64 k) j' s') i' t' - lin (fun k => lin (P k) j' s') i' t') <= eps).
  { apply lin_bound; [exact T'| |]; (apply lin_bound; [exact S'| |]); apply HP'; lia. }
  (* second coordinate *)
  assert (E2 : Rabs (lin (fun k => lin (P k) j' s') i' t' - lin (fun k => lin (P k) j s) i' t') <= top * (4 * ge + 4 * u)).
  { assert (V : forall a b, (a < N)%nat -> (b + 1 < N)%nat -> Rabs (P a (b + 1)%nat - P a b) <= top). { intros a b Ha Hb. destruct (HP' a b Ha ltac:(lia)) as [Q1 _]. destruct (HP' a (b + 1)%nat Ha Hb) as [Q2 _]. apply Rabs_le. lra. }
    apply lin_bound; [exact T'| |]; (apply lin_lip; [exact S|exact S'|apply V; lia|apply V; lia|exact Dy|exact D1]). }
  (* first coordinate *)
  assert (E3 : Rabs (lin (fun k => lin (P k) j s) i' t' - lin (fun k => lin (P k) j s) i t) <= top * (4 * ge + 4 * u)).
  { assert (V : forall a, (a + 1 < N)%nat -> Rabs (lin (P (a + 1)%nat) j s - lin (P a) j s) <= top). { intros a Ha. pose proof (lin_range (P a) j s 0 top S (proj1 (HP' a j ltac:(lia) ltac:(lia))) (proj1 (HP' a (j + 1)%nat ltac:(lia) ltac:(lia)))). pose proof (lin_range (P (a + 1)%nat) j s 0 top S (proj1 (HP' (a + 1)%nat j ltac:(lia) ltac:(lia))) (proj1 (HP' (a + 1)%nat (j + 1)%nat ltac:(lia) ltac:(lia)))). apply Rabs_le. lra. }
    apply lin_lip; [exact T|exact T'|apply (V i); lia|apply (V i'); lia|exact Dx|exact D1]. }
  set (l1 := lin (fun k => lin (P64 k) j' s') i' t') in *. set (l2 := lin (fun k => lin (P k) j' s') i' t') in *. set (l3 := lin (fun k => lin (P k) j s) i' t') in *. set (l4 := lin (fun k => lin (P k) j s) i t) in *.
  replace (comp - l4) with ((comp - l1) + ((l1 - l2) + ((l2 - l3) + (l3 - l4)))) by ring. eapply Rle_trans; [apply Rabs_triang|]. pose proof (Rabs_triang (l1 - l2) ((l2 - l3) + (l3 - l4))). pose proof (Rabs_triang (l2 - l3) (l3 - l4)). lra.
Qed.
End Cells.
