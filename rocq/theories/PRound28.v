(** Rounding errors of the residual. *)
From Coq Require Import Reals List Lra Lia ZArith.
From Verif Require Import PyBase PyLib Sums Num MMath MAperture MTel MRad MCore SMath SCore SFloat MFloat MFloat2 MFloat3 MFloat4 MFloat5 SRad SGain SRound SRound2 SRound3 SRound4 POrder64 PRound PRound4 PRound5 PRound6 PRound9 PRound10 PRad PFar PResid PSim PNorm PEnd PLip PRound13 PRound14 PRound15 PRound16 PRound17.
From Coquelicot Require Import Complex.
Import ListNotations.
Open Scope R_scope.
Open Scope list_scope.

(** ** One map *)
Section Row.
Variables (m : maths) (illum illum64 : list R -> R -> res (R -> R -> R)) (tel tel64 : telgeo) (i1 i2 i3 i4 i5 : R) (K : list R) (pr bf wavel : R) (N : nat) (top : R) (loss : R -> R) (reach : R -> Prop).
Let Ic := [i1; i2; i3; i4; i5].
Let h := grid_step pr wavel N bf.
Let ge := INR N ^ 2 * / 2 ^ 50.
Hypotheses (HN : INR N <= 2 ^ 20) (top_tiny : / 2 ^ 200 <= top) (step_tiny : forall z, reach z -> (2 <= N)%nat /\ tiny <= h) (loss_small : forall z, reach z -> loss z <= 2 / 1000)
  (pattern_both : forall z, reach z -> exists ua F0 ua64 F64, radiation_pattern illum tel Ic K z wavel N bf = Ok (ua, ua, F0) /\ radiation_pattern64 m illum64 tel64 Ic K z wavel N bf = Ok (ua64, ua64, F64) /\
  length ua = N /\ length ua64 = N /\ (forall k, (k < N)%nat -> nth k ua 0 = (INR k - INR (N / 2)) * h) /\ (forall k, (k < N)%nat -> Rabs (nth k ua64 0 - nth k ua 0) <= INR N * / 2 ^ 49 * Rabs (nth k ua 0)) /\
  forall j i, (j < N)%nat -> (i < N)%nat -> Rabs (nth i (nth j (power_pattern64 m F64) []) 0 - nth i (nth j (power_pattern F0) []) 0) <= 5 * loss z * top /\ 0 <= nth i (nth j (power_pattern F0) []) 0 <= top).

Lemma ge_range : 0 <= ge <= / 100 /\ 82 * u <= 8 * INR 2 ^ 2 * / 2 ^ 50.
Proof.
  assert (0 <= INR N) by apply pos_INR. assert (P50 : 0 < / 2 ^ 50) by (apply Rinv_0_lt_compat, pow_lt; lra). split.
  - unfold ge. split; [apply Rmult_le_pos; [apply pow2_ge_0|lra]|]. apply Rle_trans with ((2 ^ 20) ^ 2 * / 2 ^ 50); [apply Rmult_le_compat_r; [lra|]; apply pow_incr; lra|]. lra.
  - rewrite u_val. cbn [INR]. lra.
Qed.
Section Axes.
Variables (ua ua64 : list R).
Hypotheses (N2 : (2 <= N)%nat) (Hh : tiny <= h) (L1 : length ua = N) (L2 : length ua64 = N) (An : forall k, (k < N)%nat -> nth k ua 0 = (INR k - INR (N / 2)) * h)
  (Ae : forall k, (k < N)%nat -> Rabs (nth k ua64 0 - nth k ua 0) <= INR N * / 2 ^ 49 * Rabs (nth k ua 0)).
Lemma half_facts : 0 <= INR (N - 1) - INR (N / 2) /\ INR (N - 1) - INR (N / 2) <= INR (N / 2) /\ INR (N / 2) <= INR N / 2 /\ 0 < h /\ 0 <= INR N * / 2 ^ 49 <= / 2 ^ 29.
Proof.
  pose proof tiny_pos. pose proof (Nat.div_mod N 2 ltac:(lia)) as D. pose proof (Nat.mod_upper_bound N 2 ltac:(lia)) as M. assert (H1 : (N / 2 <= N - 1)%nat) by lia. assert (H2 : (N - 1 <= 2 * (N / 2))%nat) by lia. assert (H3 : (2 * (N / 2) <= N)%nat) by lia.
  apply le_INR in H1. apply le_INR in H2. apply le_INR in H3. rewrite mult_INR in H2, H3. replace (INR 2) with 2 in * by (cbn [INR]; lra). assert (0 < / 2 ^ 49) by (apply Rinv_0_lt_compat, pow_lt; lra). pose proof (pos_INR N).
  do 3 (split; [lra|]). split; [lra|]. split; [apply Rmult_le_pos; lra|]. replace (/ 2 ^ 29) with (2 ^ 20 * / 2 ^ 49) by lra. apply Rmult_le_compat_r; lra.
Qed.
Lemma axis_ge k : (k < N)%nat -> Rabs (nth k ua64 0 - nth k ua 0) <= ge * h.
Proof.
  intros Hk. destruct half_facts as (H1 & H2 & H3 & H4 & H5). eapply Rle_trans; [exact (Ae k Hk)|]. rewrite An by exact Hk. rewrite Rabs_mult, (Rabs_pos_eq h) by lra.
  assert (Kk : (k <= N - 1)%nat) by lia. apply le_INR in Kk. assert (0 <= INR k) by apply pos_INR. assert (B : Rabs (INR k - INR (N / 2)) <= INR N / 2) by (apply Rabs_le; lra).
  unfold ge. replace (INR N ^ 2 * / 2 ^ 50 * h) with (INR N * / 2 ^ 49 * (INR N / 2 * h)). 2: { replace (2 ^ 50) with (2 * 2 ^ 49) by ring. rewrite Rinv_mult. field. }
  apply Rmult_le_compat_l; [lra|]. apply Rmult_le_compat_r; lra.
Qed.
Lemma first_last : nth 0 ua 0 = - (INR (N / 2) * h) /\ nth (N - 1) ua 0 = (INR (N - 1) - INR (N / 2)) * h /\
  Rabs (nth 0 ua64 0 + INR (N / 2) * h) <= INR N * / 2 ^ 49 * (INR (N / 2) * h) /\ Rabs (nth (N - 1) ua64 0 - (INR (N - 1) - INR (N / 2)) * h) <= INR N * / 2 ^ 49 * ((INR (N - 1) - INR (N / 2)) * h).
Proof.
  destruct half_facts as (H1 & H2 & H3 & H4 & H5). assert (A0 : nth 0 ua 0 = - (INR (N / 2) * h)) by (rewrite An by lia; cbn [INR]; ring). assert (A1 : nth (N - 1) ua 0 = (INR (N - 1) - INR (N / 2)) * h) by (apply An; lia).
  split; [exact A0|]. split; [exact A1|]. pose proof (Ae 0%nat ltac:(lia)) as E0. pose proof (Ae (N - 1)%nat ltac:(lia)) as E1. rewrite A0 in E0. rewrite A1 in E1.
  assert (0 <= INR (N / 2) * h) by (apply Rmult_le_pos; [apply pos_INR|lra]). assert (0 <= (INR (N - 1) - INR (N / 2)) * h) by (apply Rmult_le_pos; lra).
  rewrite Rabs_Ropp, (Rabs_pos_eq (INR (N / 2) * h)) in E0 by lra. rewrite (Rabs_pos_eq ((INR (N - 1) - INR (N / 2)) * h)) in E1 by lra. split; [|exact E1]. replace (nth 0 ua64 0 + INR (N / 2) * h) with (nth 0 ua64 0 - - (INR (N / 2) * h)) by ring. exact E0.
Qed.
Lemma bounds_in x : well_inside h N x -> in_bounds ua x = true /\ in_bounds ua64 x = true.
Proof.
  intros Hx. destruct half_facts as (H1 & H2 & H3 & H4 & H5). destruct first_last as (A0 & A1 & E0 & E1). apply Rabs_le_iff in E0. apply Rabs_le_iff in E1. unfold well_inside in Hx. apply Rabs_le_iff in Hx.
  set (d := INR N * / 2 ^ 49) in *. assert (D1 : d <= 1) by (assert (/ 2 ^ 29 <= 1) by (rewrite <- Rinv_1; apply Rinv_le_contravar; [lra|apply pow_R1_Rle; lra]); lra).
  assert (0 <= (INR (N - 1) - INR (N / 2)) * h) by (apply Rmult_le_pos; lra). assert (Q : (INR (N - 1) - INR (N / 2)) * h <= INR (N / 2) * h) by (apply Rmult_le_compat_r; lra).
  set (B := (INR (N - 1) - INR (N / 2)) * h) in *. set (A := INR (N / 2) * h) in *. assert (B * (1 - d) <= A * (1 - d)) by (apply Rmult_le_compat_r; lra). assert (0 <= B * d) by (apply Rmult_le_pos; lra).
  unfold in_bounds. rewrite L1, L2, A0, A1. split; apply Bool.andb_true_iff; split; apply Rleb_true; lra.
Qed.
Lemma bounds_out x : well_outside h N x -> in_bounds ua x = false /\ in_bounds ua64 x = false.
Proof.
  intros Hx. destruct half_facts as (H1 & H2 & H3 & H4 & H5). destruct first_last as (A0 & A1 & E0 & E1). apply Rabs_le_iff in E0. apply Rabs_le_iff in E1. unfold well_outside in Hx.
  set (d := INR N * / 2 ^ 49) in *. assert (0 <= (INR (N - 1) - INR (N / 2)) * h) by (apply Rmult_le_pos; lra). assert (Q : (INR (N - 1) - INR (N / 2)) * h <= INR (N / 2) * h) by (apply Rmult_le_compat_r; lra).
  set (B := (INR (N - 1) - INR (N / 2)) * h) in *. set (A := INR (N / 2) * h) in *. assert (B * (1 + d) <= A * (1 + d)) by (apply Rmult_le_compat_r; lra). assert (0 <= B * d) by (apply Rmult_le_pos; lra). assert (0 <= A * d) by (apply Rmult_le_pos; lra).
  unfold in_bounds. rewrite L1, L2, A0, A1. split; apply Bool.andb_false_iff; destruct (Rle_dec 0 x) as [Z|Z].
  - right. apply Rleb_false. rewrite Rabs_pos_eq in Hx by lra. lra.
  - left. apply Rleb_false. rewrite Rabs_left in Hx by lra. lra.
  - right. apply Rleb_false. rewrite Rabs_pos_eq in Hx by lra. lra.
  - left. apply Rleb_false. rewrite Rabs_left in Hx by lra. lra.
Qed.
End Axes.

Lemma row_api u_data v_data d_z i z xs ys l : reach z -> loss z <= l ->
  nth_error d_z i = Some z -> nth_error u_data i = Some xs -> nth_error v_data i = Some ys -> length xs = length ys -> (forall x, In x (xs ++ ys) -> well_inside h N x) ->
  exists row row64, model_row illum tel (Ic ++ K) u_data v_data d_z wavel N bf i = Ok row /\ length row = length xs /\
    model_row64 m illum64 tel64 (Ic ++ K) u_data v_data d_z wavel N bf i = Ok row64 /\ close ((5 * l + INR N ^ 2 * / 2 ^ 46) * top) row64 row.
Proof.
  intros Hw Hl Hz Hx Hy HL HP. destruct (step_tiny z Hw) as (N2 & Hh). pose proof top_tiny as Ht. destruct (pattern_both z Hw) as (ua & F0 & ua64 & F64 & E1 & E2 & L1 & L2 & An & Ae & Pw). destruct ge_range as [Hge Hu]. destruct small_300 as [T3 _].
  assert (Tt : tiny <= top). { apply Rle_trans with (1 := T3). apply Rle_trans with (2 := Ht). apply Rinv_le_contravar; [apply pow_lt; lra|apply Rle_pow; [lra|lia]]. } pose proof tiny_pos as Tp.
  assert (Hfl : 0 <= loss z <= 2 / 1000).
  { split; [|exact (loss_small z Hw)]. destruct (Pw 0%nat 0%nat ltac:(lia) ltac:(lia)) as [Q _]. pose proof (Rle_trans _ _ _ (Rabs_pos _) Q) as Q'. apply Rmult_le_reg_r with (5 * top); lra. }
  assert (BX : forall x, In x (xs ++ ys) -> in_bounds ua x = true /\ in_bounds ua64 x = true) by (intros x I1; apply (bounds_in ua ua64 N2 Hh L1 L2 An Ae), HP, I1).
  assert (BXx : forall x, In x xs -> in_bounds ua x = true /\ in_bounds ua64 x = true) by (intros x I1; apply BX, in_app_iff; left; exact I1). assert (BXy : forall x, In x ys -> in_bounds ua x = true /\ in_bounds ua64 x = true) by (intros x I1; apply BX, in_app_iff; right; exact I1). clear BX HP.
  unfold model_row, model_row64, py_get. rewrite Hz, Hx, Hy. cbn [bind]. unfold Ic in *. cbn [app firstn skipn]. rewrite E1, E2. cbn [bind]. unfold interp_points, interp_points64. rewrite HL, Nat.eqb_refl.
  assert (Fa : forall l (g : list R), (forall x, In x l -> in_bounds g x = true) -> forallb (in_bounds g) l = true) by (intros l0 g Hg; apply forallb_forall; exact Hg).
  rewrite !(Fa _ _ (fun x I1 => proj1 (BXx x I1))), !(Fa _ _ (fun x I1 => proj1 (BXy x I1))), !(Fa _ _ (fun x I1 => proj2 (BXx x I1))), !(Fa _ _ (fun x I1 => proj2 (BXy x I1))). cbn [andb].
  eexists. eexists. split; [reflexivity|]. split; [rewrite map2_length; assumption|]. split; [reflexivity|].
  assert (G2 : INR 2 ^ 2 <= INR N ^ 2) by (apply pow_incr; split; [apply pos_INR|apply le_INR, N2]). assert (P50 : 0 < / 2 ^ 50) by (apply Rinv_0_lt_compat, pow_lt; lra).
  assert (Bd : 5 * loss z * top + 8 * ge * top + 82 * u * top <= (5 * l + INR N ^ 2 * / 2 ^ 46) * top).
  { replace (5 * loss z * top + 8 * ge * top + 82 * u * top) with ((5 * loss z + 8 * ge + 82 * u) * top) by ring. apply Rmult_le_compat_r; [lra|].
    assert (82 * u <= 8 * ge). { apply Rle_trans with (1 := Hu). unfold ge. assert (INR 2 ^ 2 * / 2 ^ 50 <= INR N ^ 2 * / 2 ^ 50) by (apply Rmult_le_compat_r; lra). lra. }
    assert (16 * ge = INR N ^ 2 * / 2 ^ 46). { unfold ge. replace (/ 2 ^ 46) with (16 * / 2 ^ 50) by lra. ring. } lra. }
  clear Hx Hy. revert ys HL BXy. induction xs as [|x xs IH]; intros [|y ys] HL BXy; try discriminate; [constructor|]. cbn [map2]. constructor.
  - eapply Rle_trans; [|exact Bd]. apply (interp64_err N h (INR (N / 2)) ge ua ua64 N2 Hh Hge L1 L2 An (axis_ge ua ua64 N2 Hh L1 L2 An Ae)).
    + split; [apply Rmult_le_pos; lra|]. rewrite <- (Rmult_1_l top) at 2. apply Rmult_le_compat_r; lra.
    + exact Tt.
    + intros a0 b0 Ha0 Hb0. destruct (Pw b0 a0 Hb0 Ha0) as [Q1 Q2]. split; assumption.
    + apply (BXx x). left. reflexivity.
    + apply (BXx x). left. reflexivity.
    + apply (BXy y). left. reflexivity.
    + apply (BXy y). left. reflexivity.
  - apply IH; [intros x' I1; apply BXx; right; exact I1|cbn in HL; lia|intros x' I1; apply BXy; right; exact I1].
Qed.

Lemma row_total u_data v_data d_z i z xs ys : reach z ->
  nth_error d_z i = Some z -> nth_error u_data i = Some xs -> nth_error v_data i = Some ys -> length xs = length ys ->
  let ex := model_row illum tel (Ic ++ K) u_data v_data d_z wavel N bf i in
  let fx := model_row64 m illum64 tel64 (Ic ++ K) u_data v_data d_z wavel N bf i in
  ((exists r, ex = Ok r /\ length r = length xs) \/ ex = Err ValueError) /\ ((exists r, fx = Ok r /\ length r = length xs) \/ fx = Err ValueError) /\
  ((exists x, In x (xs ++ ys) /\ well_outside h N x) -> ex = Err ValueError /\ fx = Err ValueError).
Proof.
  intros Hw Hz Hx Hy HL ex fx. destruct (step_tiny z Hw) as (N2 & Hh). destruct (pattern_both z Hw) as (ua & F0 & ua64 & F64 & E1 & E2 & L1 & L2 & An & Ae & Pw).
  unfold ex, fx, model_row, model_row64, py_get. rewrite Hz, Hx, Hy. cbn [bind]. unfold Ic in *. cbn [app firstn skipn]. rewrite E1, E2. cbn [bind]. unfold interp_points, interp_points64. rewrite HL, Nat.eqb_refl.
  split; [|split].
  - destruct (forallb (in_bounds ua) xs && forallb (in_bounds ua) ys)%bool; [left; eexists; split; [reflexivity|rewrite map2_length; assumption]|right; reflexivity].
  - destruct (forallb (in_bounds ua64) xs && forallb (in_bounds ua64) ys)%bool; [left; eexists; split; [reflexivity|rewrite map2_length; assumption]|right; reflexivity].
  - intros (x & I1 & O). destruct (bounds_out ua ua64 N2 Hh L1 L2 An Ae x O) as [B1 B2].
    assert (Fo : forall (g : list R), in_bounds g x = false -> (forallb (in_bounds g) xs && forallb (in_bounds g) ys)%bool = false).
    { intros g Hg. apply Bool.not_true_iff_false. intros A. apply Bool.andb_true_iff in A as [A1 A2]. rewrite forallb_forall in A1, A2. apply in_app_iff in I1 as [I1|I1]; [rewrite (A1 x I1) in Hg|rewrite (A2 x I1) in Hg]; discriminate. }
    rewrite (Fo ua B1), (Fo ua64 B2). split; reflexivity.
Qed.
End Row.
