(** Rounding errors of the axes of the radiation pattern. *)
From Coq Require Import Reals List Lra Lia ZArith.
From Flocq Require Import Core.
From Verif Require Import PyBase PyLib Num MAperture MRad PRad SFloat MFloat MFloat2 SRound SRound2 POrder64 PRound PRound4 PRound5 PSim.
Import ListNotations.
Open Scope R_scope.

Lemma fl_opp x : fl (- x) = - fl x.
Proof. apply round_NE_opp. Qed.
Lemma tiny_300 : tiny <= / 2 ^ 300.
Proof. unfold tiny. apply Rinv_le_contravar; [apply pow_lt; lra|]. apply Rle_pow; [lra|lia]. Qed.
Lemma rel_scale a x y c : rel a x y -> rel a (c * x) (c * y).
Proof. intros R. unfold rel in *. replace (c * x - c * y) with (c * (x - y)) by ring. rewrite !Rabs_mult. pose proof (Rabs_pos c). nra. Qed.
Lemma rel_trans a b x y z : 0 <= a -> rel a x y -> rel b y z -> rel (a + b + a * b) x z.
Proof.
  intros Ha R1 R2. unfold rel in *. assert (Y : Rabs y <= (1 + b) * Rabs z). { replace y with (z + (y - z)) by ring. eapply Rle_trans; [apply Rabs_triang|]. lra. }
  replace (x - z) with ((x - y) + (y - z)) by ring. eapply Rle_trans; [apply Rabs_triang|]. assert (a * Rabs y <= a * ((1 + b) * Rabs z)) by (apply Rmult_le_compat_l; lra). lra.
Qed.

Definition step (B wavel : R) (n : nat) : R := 1 / (INR n * (2 * B / INR (n - 1))) * wavel.

Section Axis.
Variables (B wavel : R) (n : nat).
Hypothesis (HB : / 2 ^ 110 <= B <= 2 ^ 110) (HW : / 2 ^ 110 <= wavel <= 2 ^ 110) (Hn : INR n <= 2 ^ 40) (N : (2 <= n)%nat).
Let m := INR (n - 1).
Let d := 2 * B / m.
Let val := fl (1 / fl (INR n * dx64 B n)).

Lemma n_m : INR n = m + 1 /\ 1 <= m <= 2 ^ 40.
Proof. unfold m. rewrite minus_INR by lia. change (INR 1) with 1. assert (2 <= INR n) by (apply (le_INR 2); lia). lra. Qed.
Lemma B_pos : 0 < B /\ tiny * 2 ^ 60 <= B.
Proof. pose proof tiny_300. assert (0 < / 2 ^ 110) by (apply Rinv_0_lt_compat, pow_lt; lra). split; [lra|]. apply Rle_trans with (2 := proj1 HB). lra. Qed.
Lemma d_pos : 0 < d /\ B = d * m / 2 /\ INR n * d <= 4 * B /\ 2 * B <= INR n * d /\ / 2 ^ 151 <= d.
Proof.
  destruct n_m as [E M], B_pos as [P _]. assert (D : 0 < d) by (unfold d; apply Rdiv_lt_0_compat; lra). assert (Q : d * m = 2 * B) by (unfold d; field; lra). split; [exact D|]. split; [lra|]. rewrite E. split; [nra|]. split; [nra|].
  apply Rmult_le_reg_r with m; [lra|]. rewrite Q. apply Rle_trans with (/ 2 ^ 151 * 2 ^ 40); [apply Rmult_le_compat_l; lra|]. lra.
Qed.
Lemma dx_rel : rel (82 / 10 * u * m) (linspace64 (- B) B n 1 - linspace64 (- B) B n 0) d.
Proof.
  destruct n_m as [E M], B_pos as [P Tb], d_pos as (D & ED & _). pose proof (grid_err B n 1 Tb ltac:(lra) N ltac:(lia)) as E1. pose proof (grid_err B n 0 Tb ltac:(lra) N ltac:(lia)) as E0. unfold rel. rewrite (Rabs_pos_eq d) by lra.
  assert (G : node B n 1 - node B n 0 = d) by (unfold node; fold m; unfold d; cbn [INR]; field; lra). apply Rabs_le_iff in E1, E0. rewrite u_val in *. apply Rabs_le. nra.
Qed.
Lemma val_rel : rel (102 / 100 * (82 / 10 * u * m) + 314 / 100 * u) val (1 / (INR n * d)).
Proof.
  destruct n_m as [E M], B_pos as [P Tb], d_pos as (D & ED & D4 & D2 & D1). pose proof tiny_300 as T3. pose proof dx_rel as R0. unfold val, dx64. rewrite u_val in *. set (a := 82 / 10 * / 9007199254740992 * m) in *.
  assert (Ha : 0 <= a <= / 200) by (unfold a; split; lra). assert (Td : tiny <= Rabs d) by (rewrite Rabs_pos_eq; lra).
  pose proof (rel_fl a _ _ ltac:(lra) Td R0) as R1. rewrite u_val in R1. apply (rel_scale _ _ _ (INR n)) in R1. assert (Tn : tiny <= Rabs (INR n * d)) by (rewrite Rabs_pos_eq; lra).
  pose proof (rel_fl (a + 103 / 100 * / 9007199254740992) _ _ ltac:(lra) Tn R1) as R2. rewrite u_val in R2.
  pose proof (rel_inv (a + 103 / 100 * / 9007199254740992 + 103 / 100 * / 9007199254740992) _ (INR n * d) ltac:(lra) ltac:(lra) R2) as R3. assert (I : / 2 ^ 113 <= 1 / (INR n * d)).
  { unfold Rdiv. rewrite Rmult_1_l. apply Rinv_le_contravar; lra. }
  assert (Ti : tiny <= Rabs (1 / (INR n * d))) by (rewrite Rabs_pos_eq; lra). pose proof (rel_fl (102 / 100 * (a + 103 / 100 * / 9007199254740992 + 103 / 100 * / 9007199254740992)) _ _ ltac:(lra) Ti R3) as R4. rewrite u_val in R4. eapply rel_le; [|exact R4]. lra.
Qed.
Lemma val_range : / 2 ^ 114 <= val.
Proof.
  destruct n_m as [E M], B_pos as [P Tb], d_pos as (D & ED & D4 & D2 & D1). pose proof val_rel as R. unfold rel in R. assert (I : / 2 ^ 113 <= 1 / (INR n * d)). { unfold Rdiv. rewrite Rmult_1_l. apply Rinv_le_contravar; lra. }
  rewrite (Rabs_pos_eq (1 / (INR n * d))) in R by lra. apply Rabs_le_iff in R. rewrite u_val in R. assert (X : (102 / 100 * (82 / 10 * / 9007199254740992 * m) + 314 / 100 * / 9007199254740992) * (1 / (INR n * d)) <= / 10 * (1 / (INR n * d))) by (apply Rmult_le_compat_r; lra). lra.
Qed.

(** The entry against the value val the axis is made of. *)
Lemma axis_val k : rel (207 / 100 * u) (axis64 B wavel n k) (IZR k * val * wavel).
Proof.
  pose proof val_range as V. pose proof tiny_300 as T3. unfold axis64, freq64. fold val. assert (W0 : 0 < wavel) by (assert (0 < / 2 ^ 110) by (apply Rinv_0_lt_compat, pow_lt; lra); lra). assert (V0 : 0 < val) by (assert (0 < / 2 ^ 114) by (apply Rinv_0_lt_compat, pow_lt; lra); lra).
  rewrite u_val. destruct (Z.eq_dec k 0) as [->|K]; [rewrite !Rmult_0_l, !POrder64.fl_0, Rmult_0_l, POrder64.fl_0; unfold rel; rewrite Rminus_0_r, Rabs_R0; lra|].
  assert (K1 : 1 <= Rabs (IZR k)) by (rewrite <- abs_IZR; apply IZR_le; lia). assert (A1 : / 2 ^ 114 <= Rabs (IZR k * val)) by (rewrite Rabs_mult, (Rabs_pos_eq val) by lra; nra).
  assert (T1 : tiny <= Rabs (IZR k * val)) by lra. pose proof (rel_fl 0 _ _ ltac:(lra) T1 (rel_refl _)) as R1. rewrite u_val in R1. apply (rel_scale _ _ _ wavel) in R1.
  assert (T2 : tiny <= Rabs (wavel * (IZR k * val))). { rewrite Rabs_mult, (Rabs_pos_eq wavel) by lra. apply Rle_trans with (/ 2 ^ 110 * / 2 ^ 114); [lra|]. apply Rmult_le_compat; try lra. }
  pose proof (rel_fl (0 + 103 / 100 * / 9007199254740992) _ _ ltac:(lra) T2 R1) as R2. rewrite u_val in R2. rewrite (Rmult_comm wavel (fl (IZR k * val))), (Rmult_comm wavel (IZR k * val)) in R2. eapply rel_le; [|exact R2]. lra.
Qed.
Lemma axis_err k : rel (9 * u * INR n) (axis64 B wavel n k) (IZR k * step B wavel n).
Proof.
  destruct n_m as [E M]. pose proof (axis_val k) as R1. pose proof val_rel as R2. apply (rel_scale _ _ _ (IZR k * wavel)) in R2. replace (IZR k * wavel * val) with (IZR k * val * wavel) in R2 by ring.
  unfold step. fold m. fold d. replace (IZR k * (1 / (INR n * d) * wavel)) with (IZR k * wavel * (1 / (INR n * d))) by ring. eapply rel_le; [|refine (rel_trans _ _ _ _ _ _ R1 R2)]; rewrite u_val in *; [rewrite E; nra|lra].
Qed.
Lemma axis_zero : axis64 B wavel n 0 = 0.
Proof. unfold axis64, freq64. rewrite Rmult_0_l, POrder64.fl_0, Rmult_0_l. apply POrder64.fl_0. Qed.
Lemma axis_opp k : axis64 B wavel n (- k) = - axis64 B wavel n k.
Proof. unfold axis64, freq64. rewrite opp_IZR, <- Ropp_mult_distr_l, fl_opp, <- Ropp_mult_distr_l. apply fl_opp. Qed.
Lemma axis_increasing k : (Z.abs k <= 2 ^ 40)%Z -> axis64 B wavel n k < axis64 B wavel n (k + 1).
Proof.
  intros K. pose proof val_range as V. assert (W0 : 0 < wavel) by (assert (0 < / 2 ^ 110) by (apply Rinv_0_lt_compat, pow_lt; lra); lra). assert (V0 : 0 < val) by (assert (0 < / 2 ^ 114) by (apply Rinv_0_lt_compat, pow_lt; lra); lra).
  pose proof (axis_val k) as R1. pose proof (axis_val (k + 1)) as R2. unfold rel in R1, R2. rewrite !Rmult_assoc in R1, R2. rewrite Rabs_mult in R1, R2. rewrite plus_IZR in R2. set (w := val * wavel) in *. assert (W : 0 < w) by (apply Rmult_lt_0_compat; assumption).
  rewrite (Rabs_pos_eq w) in * by lra. assert (K1 : Rabs (IZR k) <= 2 ^ 40) by (rewrite <- abs_IZR; apply IZR_le in K; change (2 ^ 40)%Z with 1099511627776%Z in K; lra).
  assert (K2 : Rabs (IZR k + 1) <= 2 ^ 40 + 1) by (eapply Rle_trans; [apply Rabs_triang|]; rewrite Rabs_R1; lra). rewrite u_val in *. apply Rabs_le_iff in R1. apply Rabs_le_iff in R2.
  assert (Rabs (IZR k) * w <= 2 ^ 40 * w) by (apply Rmult_le_compat_r; lra). assert (Rabs (IZR k + 1) * w <= (2 ^ 40 + 1) * w) by (apply Rmult_le_compat_r; lra). nra.
Qed.
End Axis.

(** ** Against the axes of the model *)
Lemma box_err b : / 2 ^ 100 <= b <= 2 ^ 100 -> rel (103 / 100 * u) (fl b) b /\ / 2 ^ 110 <= fl b <= 2 ^ 110.
Proof.
  intros H. pose proof tiny_300. assert (0 < / 2 ^ 100) by (apply Rinv_0_lt_compat, pow_lt; lra). assert (Tb : tiny <= Rabs b) by (rewrite Rabs_pos_eq; lra).
  pose proof (rel_fl 0 _ _ ltac:(lra) Tb (rel_refl _)) as R1. rewrite u_val in *. split; [eapply rel_le; [|exact R1]; lra|]. unfold rel in R1. rewrite (Rabs_pos_eq b) in R1 by lra. apply Rabs_le_iff in R1. lra.
Qed.
Lemma u_axis_err illum tel I K d_z wavel N bf ua va F : / 2 ^ 100 <= tel_pr tel * bf <= 2 ^ 100 -> / 2 ^ 100 <= wavel <= 2 ^ 100 -> INR N <= 2 ^ 40 ->
  radiation_pattern illum tel I K d_z wavel N bf = Ok (ua, va, F) -> forall i, (i < N)%nat ->
  Rabs (u_axis64 (tel_pr tel) bf wavel N i - nth i ua 0) <= INR N * / 2 ^ 49 * Rabs (nth i ua 0) /\ nth i va 0 = nth i ua 0.
Proof.
  intros Hb Hw HN H i Hi. destruct (rad_inv _ _ _ _ _ _ _ _ _ _ _ H) as (N2 & _ & _ & _ & Eu & ->). split; [|reflexivity].
  assert (P0 : 0 < / 2 ^ 100) by (apply Rinv_0_lt_compat, pow_lt; lra). rewrite Eu, axis_nth by (first [assumption|lra]). destruct (box_err _ Hb) as [Rb Bb]. set (b := tel_pr tel * bf) in *.
  assert (HW : / 2 ^ 110 <= wavel <= 2 ^ 110) by lra. assert (M1 : INR (N - 1) = INR N - 1) by (rewrite minus_INR by lia; reflexivity). assert (M2 : 2 <= INR N) by (apply (le_INR 2); lia).
  pose proof (axis_err (fl b) wavel N Bb HW HN N2 (Z.of_nat i - Z.of_nat (N / 2))) as R1. unfold u_axis64. fold b. rewrite minus_IZR, <- !INR_IZR_INZ in R1. set (k := INR i - INR (N / 2)) in *. unfold step in R1. rewrite M1 in R1. rewrite u_val in *.
  apply (rel_inv (103 / 100 * / 9007199254740992) (fl b) b ltac:(lra) ltac:(lra)) in Rb. apply (rel_scale _ _ _ (k * wavel * (INR N - 1) / (2 * INR N))) in Rb. assert (Fb : fl b <> 0) by lra.
  replace (k * wavel * (INR N - 1) / (2 * INR N) * (1 / fl b)) with (k * (1 / (INR N * (2 * fl b / (INR N - 1))) * wavel)) in Rb by (field; repeat split; lra).
  replace (k * wavel * (INR N - 1) / (2 * INR N) * (1 / b)) with (k * (wavel * (INR N - 1) / (2 * b * INR N))) in Rb by (field; repeat split; lra).
  pose proof (rel_trans (9 * / 9007199254740992 * INR N) _ _ _ _ ltac:(lra) R1 Rb) as R2. eapply rel_le; [|exact R2]. nra.
Qed.
Lemma u_axis_exact pr bf wavel N : / 2 ^ 100 <= pr * bf <= 2 ^ 100 -> / 2 ^ 100 <= wavel <= 2 ^ 100 -> INR N <= 2 ^ 40 -> (2 <= N)%nat ->
  u_axis64 pr bf wavel N (N / 2) = 0 /\ (forall j, (j <= N / 2)%nat -> u_axis64 pr bf wavel N (N / 2 + j) = - u_axis64 pr bf wavel N (N / 2 - j)) /\
  forall i, (S i < N)%nat -> u_axis64 pr bf wavel N i < u_axis64 pr bf wavel N (S i).
Proof.
  intros Hb Hw HN N2. assert (P0 : 0 < / 2 ^ 100) by (apply Rinv_0_lt_compat, pow_lt; lra). destruct (box_err _ Hb) as [_ Bb]. assert (HW : / 2 ^ 110 <= wavel <= 2 ^ 110) by lra. unfold u_axis64. split; [|split].
  - rewrite Z.sub_diag. apply axis_zero.
  - intros j Hj. rewrite <- axis_opp. f_equal. lia.
  - intros i Hi. replace (Z.of_nat (S i) - Z.of_nat (N / 2))%Z with (Z.of_nat i - Z.of_nat (N / 2) + 1)%Z by lia. apply axis_increasing; try assumption.
    assert (Z.of_nat N <= 2 ^ 40)%Z by (apply le_IZR; rewrite <- INR_IZR_INZ; change (2 ^ 40)%Z with 1099511627776%Z; lra). assert (N / 2 <= N)%nat by (apply Nat.div_le_upper_bound; lia). lia.
Qed.
