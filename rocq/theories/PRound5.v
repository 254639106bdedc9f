(** Rounding errors of grids, of the rim of the dish and of the axes of the radiation pattern. *)
From Coq Require Import Reals List Lra Lia ZArith.
From Verif Require Import PyBase PyLib Num SFloat MFloat MFloat2 SRound SRound2 POrder64 PRound PRound4 PSim.
Import ListNotations.
Open Scope R_scope.

(** x is y up to a relative error a. *)
Definition rel (a x y : R) : Prop := Rabs (x - y) <= a * Rabs y.
Lemma u_val : u = / 9007199254740992.
Proof. unfold unit_roundoff. lra. Qed.
Lemma rel_refl x : rel 0 x x.
Proof. unfold rel. rewrite Rminus_diag_eq by reflexivity. rewrite Rabs_R0. lra. Qed.
Lemma rel_le a b x y : a <= b -> rel a x y -> rel b x y.
Proof. intros H R. unfold rel in *. pose proof (Rabs_pos y). nra. Qed.
Lemma rel_fl a x y : 0 <= a <= / 100 -> tiny <= Rabs y -> rel a x y -> rel (a + 103 / 100 * u) (fl x) y.
Proof.
  intros Ha Hy R. unfold rel in *. pose proof (fl_u x) as F. assert (X : Rabs x <= (1 + a) * Rabs y). { replace x with (y + (x - y)) by ring. eapply Rle_trans; [apply Rabs_triang|]. lra. }
  replace (fl x - y) with ((fl x - x) + (x - y)) by ring. eapply Rle_trans; [apply Rabs_triang|]. pose proof roundoff_pos. pose proof (Rabs_pos y).
  assert (T <= / 100 * Rabs y) by (unfold T; lra). assert (u * (Rabs x + T) <= u * (103 / 100 * Rabs y)) by (apply Rmult_le_compat_l; [lra|nra]). nra.
Qed.
Lemma rel_mul a b x y x' y' : 0 <= a -> 0 <= b -> rel a x y -> rel b x' y' -> rel (a + b + a * b) (x * x') (y * y').
Proof.
  intros Ha Hb R R'. unfold rel in *. rewrite Rabs_mult. replace (x * x' - y * y') with ((x - y) * y' + y * (x' - y') + (x - y) * (x' - y')) by ring.
  eapply Rle_trans; [apply Rabs_triang|]. eapply Rle_trans; [apply Rplus_le_compat_r, Rabs_triang|]. rewrite !Rabs_mult. pose proof (Rabs_pos y). pose proof (Rabs_pos y'). pose proof (Rabs_pos (x - y)). pose proof (Rabs_pos (x' - y')).
  assert (Rabs (x - y) * Rabs y' <= a * Rabs y * Rabs y') by (apply Rmult_le_compat_r; lra). assert (Rabs y * Rabs (x' - y') <= Rabs y * (b * Rabs y')) by (apply Rmult_le_compat_l; lra).
  assert (Rabs (x - y) * Rabs (x' - y') <= (a * Rabs y) * (b * Rabs y')) by (apply Rmult_le_compat; lra). nra.
Qed.
Lemma rel_inv a x y : 0 <= a <= / 100 -> y <> 0 -> rel a x y -> rel (102 / 100 * a) (1 / x) (1 / y).
Proof.
  intros Ha Hy R. unfold rel in *. assert (Py : 0 < Rabs y) by (apply Rabs_pos_lt, Hy).
  assert (X : 99 / 100 * Rabs y <= Rabs x). { pose proof (Rabs_triang_inv y x) as Q. rewrite Rabs_minus_sym in Q. nra. }
  assert (Hx : x <> 0) by (intros ->; rewrite Rabs_R0 in X; lra). replace (1 / x - 1 / y) with ((y - x) / (x * y)) by (field; auto). unfold Rdiv. rewrite !Rabs_mult, Rabs_R1, !Rabs_inv, Rabs_mult, Rabs_minus_sym. 
  assert (Px : 0 < Rabs x) by lra. apply Rle_trans with (a * Rabs y * / (99 / 100 * Rabs y * Rabs y)).
  - apply Rmult_le_compat; [apply Rabs_pos|left; apply Rinv_0_lt_compat; nra|exact R|]. apply Rinv_le_contravar; nra.
  - replace (a * Rabs y * / (99 / 100 * Rabs y * Rabs y)) with (100 / 99 * a * / Rabs y) by (field; lra). rewrite Rmult_1_l. apply Rmult_le_compat_r; [left; apply Rinv_0_lt_compat, Py|]. lra.
Qed.

(** ** The grid *)
Definition node (B : R) (n i : nat) : R := - B + INR i * ((B - - B) / INR (n - 1)).
Lemma node_range B n i : 0 < B -> (i < n)%nat -> Rabs (node B n i) <= B.
Proof.
  intros HB Hi. unfold node. destruct (Nat.eq_dec n 1) as [->|N]; [replace i with 0%nat by lia; cbn [INR]; rewrite Rmult_0_l, Rplus_0_r, Rabs_Ropp, Rabs_pos_eq; lra|].
  assert (P : 0 < INR (n - 1)) by (apply lt_0_INR; lia). assert (Q : INR i <= INR (n - 1)) by (apply le_INR; lia). pose proof (pos_INR i).
  replace (INR i * ((B - - B) / INR (n - 1))) with (2 * B * (INR i / INR (n - 1))) by (field; lra). assert (0 <= INR i / INR (n - 1) <= 1).
  { split; [apply div_pos'; lra|]. apply Rmult_le_reg_r with (INR (n - 1)); [exact P|]. unfold Rdiv. rewrite Rmult_assoc, Rinv_l by lra. lra. }
  apply Rabs_le. nra.
Qed.
Lemma grid_err B n i : tiny * 2 ^ 60 <= B -> INR n <= 2 ^ 50 -> (2 <= n)%nat -> (i < n)%nat -> Rabs (linspace64 (- B) B n i - node B n i) <= 82 / 10 * u * B.
Proof.
  intros HB Hn N Hi. pose proof tiny_pos as Tp. pose proof roundoff_pos as U. rewrite u_val in *. assert (B0 : 0 < B) by lra. unfold linspace64. assert (P : 0 < INR (n - 1)) by (apply lt_0_INR; lia).
  assert (Pn : INR (n - 1) <= 2 ^ 50) by (apply Rle_trans with (2 := Hn), le_INR; lia).
  destruct (Nat.eqb_spec i (n - 1)) as [->|Ne]; [unfold node; replace (- B + INR (n - 1) * ((B - - B) / INR (n - 1))) with B by (field; lra); rewrite Rminus_diag_eq, Rabs_R0 by reflexivity; nra|].
  assert (B2 : tiny <= Rabs (B - - B)) by (rewrite Rabs_pos_eq; lra).
  pose proof (rel_fl 0 (B - - B) (B - - B) ltac:(lra) B2 (rel_refl _)) as R1. set (m := INR (n - 1)) in *.
  assert (Sm : forall a x y c, rel a x y -> rel a (x / c) (y / c)).
  { intros a x y c R. unfold rel in *. replace (x / c - y / c) with ((x - y) * / c) by (unfold Rdiv; ring). unfold Rdiv. rewrite !Rabs_mult. pose proof (Rabs_pos (/ c)). nra. }
  assert (Sc : forall a x y c, rel a x y -> rel a (c * x) (c * y)).
  { intros a x y c R. unfold rel in *. replace (c * x - c * y) with (c * (x - y)) by ring. rewrite !Rabs_mult. pose proof (Rabs_pos c). nra. }
  apply (Sm _ _ _ m) in R1. assert (D : tiny <= (B - - B) / m).
  { apply Rmult_le_reg_r with m; [exact P|]. unfold Rdiv. rewrite Rmult_assoc, Rinv_l by lra. assert (tiny * m <= tiny * 2 ^ 50) by (apply Rmult_le_compat_l; lra). lra. }
  rewrite u_val in R1. assert (D' : tiny <= Rabs ((B - - B) / m)) by (rewrite Rabs_pos_eq; lra).
  pose proof (rel_fl (0 + 103 / 100 * / 9007199254740992) _ _ ltac:(lra) D' R1) as R2. set (d := (B - - B) / m) in *. rewrite u_val in R2.
  apply (Sc _ _ _ (INR i)) in R2. set (s := fl (fl (B - - B) / m)) in *.
  assert (K : Rabs (fl (INR i * s) - INR i * d) <= 310 / 100 * / 9007199254740992 * (2 * B)).
  { destruct i as [|i]; [cbn [INR]; rewrite !Rmult_0_l, POrder64.fl_0, Rminus_0_r, Rabs_R0; nra|]. set (j := INR (Datatypes.S i)) in *.
    assert (J1 : 1 <= j) by (unfold j; rewrite S_INR; pose proof (pos_INR i); lra). assert (J2 : j * d <= 2 * B).
    { apply Rle_trans with (m * d); [apply Rmult_le_compat_r; [lra|unfold j, m; apply le_INR; lia]|]. unfold d. replace (m * ((B - - B) / m)) with (2 * B) by (field; lra). lra. }
    assert (J3 : tiny <= Rabs (j * d)) by (rewrite Rabs_pos_eq; nra). pose proof (rel_fl (0 + 103 / 100 * / 9007199254740992 + 103 / 100 * / 9007199254740992) _ _ ltac:(lra) J3 R2) as R3. rewrite u_val in R3. unfold rel in R3. eapply Rle_trans; [exact R3|]. rewrite Rabs_pos_eq by nra. nra. }
  pose proof (node_range B n i B0 Hi) as NR. unfold node in *. fold m in NR. fold m. fold d in NR. fold d. set (x := fl (INR i * s)) in *. set (y := INR i * d) in *. clearbody x y.
  pose proof (fl_u (x + - B)) as F. rewrite u_val in F. assert (X : Rabs (x + - B) <= 101 / 100 * B). { replace (x + - B) with ((- B + y) + (x - y)) by ring. eapply Rle_trans; [apply Rabs_triang|]. lra. }
  assert (T1 : T <= / 100 * B) by (unfold T; lra). replace (fl (x + - B) - (- B + y)) with ((fl (x + - B) - (x + - B)) + (x - y)) by ring. eapply Rle_trans; [apply Rabs_triang|]. lra.
Qed.

Lemma node_linspace B n i : (i < n)%nat -> nth i (linspace (- B) B n) 0 = node B n i.
Proof. intros H. rewrite linspace_nth by exact H. reflexivity. Qed.

Lemma grid_increasing B n i : tiny * 2 ^ 60 <= B -> INR n <= 2 ^ 48 -> (S i < n)%nat -> linspace64 (- B) B n i < linspace64 (- B) B n (S i).
Proof.
  intros HB Hn Hi. pose proof (grid_err B n i HB ltac:(lra) ltac:(lia) ltac:(lia)) as E1. pose proof (grid_err B n (S i) HB ltac:(lra) ltac:(lia) Hi) as E2. pose proof tiny_pos.
  assert (P : 0 < INR (n - 1)) by (apply lt_0_INR; lia). assert (Pn : INR (n - 1) <= 2 ^ 48) by (apply Rle_trans with (2 := Hn), le_INR; lia).
  assert (D : / 2 ^ 47 * B <= node B n (S i) - node B n i).
  { unfold node. rewrite S_INR. replace (_ - _) with (2 * B * / INR (n - 1)) by (field; lra). assert (/ 2 ^ 48 <= / INR (n - 1)) by (apply Rinv_le_contravar; lra).
    replace (/ 2 ^ 47) with (2 * / 2 ^ 48) by lra. nra. }
  apply Rabs_le_iff in E1, E2. rewrite u_val in *. assert (0 < B) by lra. lra.
Qed.

(** ** The rim of the dish *)
Lemma square_near r x x64 : 0 < r -> tiny <= r * r -> Rabs x <= r -> Rabs (x64 - x) <= 82 / 10 * u * r -> Rabs (square64 x64 - x ^ 2) <= 18 * u * (r * r).
Proof.
  intros Hr Hr2 Hx H. assert (R2 : 0 < r * r) by nra. unfold square64. pose proof (fl_u (x64 * x64)) as F. rewrite u_val in *. apply Rabs_le_iff in Hx, H. assert (X : Rabs (x64 * x64 - x ^ 2) <= 165 / 10 * / 9007199254740992 * (r * r)).
  { replace (x64 * x64 - x ^ 2) with ((x64 - x) * (x64 + x)) by ring. rewrite Rabs_mult. apply Rle_trans with ((82 / 10 * / 9007199254740992 * r) * (201 / 100 * r)); [|lra].
    apply Rmult_le_compat; [apply Rabs_pos|apply Rabs_pos|apply Rabs_le; lra|apply Rabs_le; lra]. }
  assert (Y : Rabs (x64 * x64) <= 102 / 100 * (r * r)).
  { rewrite Rabs_mult. apply Rle_trans with ((1005 / 1000 * r) * (1005 / 1000 * r)); [|lra]. apply Rmult_le_compat; try apply Rabs_pos; apply Rabs_le; lra. }
  assert (T <= / 100 * (r * r)) by (unfold T; lra). replace (fl (x64 * x64) - x ^ 2) with ((fl (x64 * x64) - x64 * x64) + (x64 * x64 - x ^ 2)) by ring. eapply Rle_trans; [apply Rabs_triang|]. lra.
Qed.
Lemma rim r n i j : / 2 ^ 100 <= r -> INR n <= 2 ^ 50 -> (2 <= n)%nat -> (i < n)%nat -> (j < n)%nat ->
  let x := nth i (linspace (- r) r n) 0 in let y := nth j (linspace (- r) r n) 0 in
  / 2 ^ 47 * r ^ 2 < Rabs (x ^ 2 + y ^ 2 - r ^ 2) -> outside64 r n i j = Rltb (r ^ 2) (x ^ 2 + y ^ 2).
Proof.
  intros Hr Hn N Hi Hj. cbv zeta. rewrite !node_linspace by assumption. intros Far.
  assert (Rp : 0 < r) by (apply Rlt_le_trans with (2 := Hr), Rinv_0_lt_compat, pow_lt; lra).
  assert (Tr : tiny * 2 ^ 60 <= r). { apply Rle_trans with (2 := Hr). unfold tiny. replace 900%nat with (160 + 740)%nat by reflexivity. rewrite pow_add, Rinv_mult. assert (/ 2 ^ 740 <= 1) by (rewrite <- Rinv_1; apply Rinv_le_contravar; [lra|]; apply pow_R1_Rle; lra).
    replace (/ 2 ^ 100) with (/ 2 ^ 160 * 2 ^ 60) by lra. assert (0 < / 2 ^ 160) by (apply Rinv_0_lt_compat, pow_lt; lra). assert (0 < / 2 ^ 740) by (apply Rinv_0_lt_compat, pow_lt; lra).
    assert (/ 2 ^ 160 * / 2 ^ 740 <= / 2 ^ 160 * 1) by (apply Rmult_le_compat_l; lra). assert (0 < 2 ^ 60) by (apply pow_lt; lra). nra. }
  assert (Tr2 : tiny <= r * r). { pose proof tiny_pos. apply Rle_trans with (/ 2 ^ 100 * / 2 ^ 100); [|assert (0 < / 2 ^ 100) by (apply Rinv_0_lt_compat, pow_lt; lra); nra]. rewrite <- Rinv_mult, <- pow_add. apply Rinv_le_contravar; [apply pow_lt; lra|]. apply Rle_pow; [lra|lia]. }
  pose proof (square_near r _ _ Rp Tr2 (node_range r n i Rp Hi) (grid_err r n i Tr Hn N Hi)) as Ex. pose proof (square_near r _ _ Rp Tr2 (node_range r n j Rp Hj) (grid_err r n j Tr Hn N Hj)) as Ey.
  assert (Er : Rabs (square64 r - r ^ 2) <= 18 * u * (r * r)). { apply square_near; try assumption; [rewrite Rabs_pos_eq; lra|]. rewrite Rminus_diag_eq, Rabs_R0 by reflexivity. pose proof roundoff_pos. nra. }
  unfold outside64. cbv zeta. set (a := square64 (linspace64 (- r) r n i)) in *. set (b := square64 (linspace64 (- r) r n j)) in *. set (c := square64 r) in *. set (x := node r n i) in *. set (y := node r n j) in *.
  assert (Xr : 0 <= x ^ 2 <= r * r) by (pose proof (node_range r n i Rp Hi) as Q; apply Rabs_le_iff in Q; fold x in Q; nra). assert (Yr : 0 <= y ^ 2 <= r * r) by (pose proof (node_range r n j Rp Hj) as Q; apply Rabs_le_iff in Q; fold y in Q; nra).
  replace (r ^ 2) with (r * r) in * by ring. set (q := r * r) in *. assert (Q0 : 0 < q) by (unfold q; nra). pose proof (fl_u (a + b)) as F. rewrite u_val in *. set (x2 := x ^ 2) in *. set (y2 := y ^ 2) in *. clearbody a b c x2 y2 q.
  apply Rabs_le_iff in Ex, Ey, Er. assert (AB : Rabs (a + b) <= 201 / 100 * q) by (apply Rabs_le; lra). assert (T <= / 100 * q) by (unfold T; lra).
  assert (F' : Rabs (fl (a + b) - (a + b)) <= / 9007199254740992 * (203 / 100 * q)) by lra. apply Rabs_le_iff in F'. unfold Rltb.
  destruct (Rlt_dec c (fl (a + b))) as [L|L], (Rlt_dec q (x2 + y2)) as [L'|L']; try reflexivity; exfalso.
  - rewrite Rabs_left1 in Far by lra. lra.
  - rewrite Rabs_pos_eq in Far by lra. lra.
Qed.
Lemma grid_api B n : / 2 ^ 100 <= B -> INR n <= 2 ^ 48 -> (2 <= n)%nat ->
  (forall i, (i < n)%nat -> Rabs (linspace64 (- B) B n i - nth i (linspace (- B) B n) 0) <= / 2 ^ 49 * B) /\
  (forall i, (S i < n)%nat -> linspace64 (- B) B n i < linspace64 (- B) B n (S i)).
Proof.
  intros HB Hn N. assert (Tb : tiny * 2 ^ 60 <= B).
  { assert (T3 : tiny <= / 2 ^ 300) by (unfold tiny; apply Rinv_le_contravar; [apply pow_lt; lra|apply Rle_pow; [lra|lia]]). apply Rle_trans with (2 := HB). lra. }
  assert (0 < B) by (apply Rlt_le_trans with (2 := HB), Rinv_0_lt_compat, pow_lt; lra). split; intros i Hi; [|apply grid_increasing; assumption].
  rewrite node_linspace by exact Hi. eapply Rle_trans; [apply grid_err; try assumption; lra|]. rewrite u_val. lra.
Qed.
