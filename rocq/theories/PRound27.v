(** Rounding errors of the Effelsberg telescope, and a concrete case. *)
From Coq Require Import Reals List Lra Lia ZArith Bool.
From Verif Require Import PyBase PyLib Sums Num MMath MAperture MTel STel MRad SRad SGain SFloat MFloat MFloat2 MFloat3 MFloat4 MFloat8 SRound SRound2 SRound3 SRound7 PPolar PTel POrder64 PRound PRound2 PRound4 PRound5 PRound6 PRound9 PRound10 PRound11 PRound12 PRound13 PRound14 PRound25 PRound26 PSim PFft PRad PGain.
From Coquelicot Require Import Complex.
Import ListNotations.
Open Scope R_scope.

(** ** The path difference *)
Lemma term_diff a b : Rabs ((1 - a ^ 2) / (1 + a ^ 2) - (1 - b ^ 2) / (1 + b ^ 2)) <= 2 * Rabs (a ^ 2 - b ^ 2).
Proof.
  pose proof (pow2_ge_0 a). pose proof (pow2_ge_0 b). replace ((1 - a ^ 2) / (1 + a ^ 2) - (1 - b ^ 2) / (1 + b ^ 2)) with (- (2 * (a ^ 2 - b ^ 2)) * / ((1 + a ^ 2) * (1 + b ^ 2))) by (field; lra).
  rewrite Rabs_mult, Rabs_Ropp, Rabs_mult, (Rabs_pos_eq 2) by lra. assert (P : 1 <= (1 + a ^ 2) * (1 + b ^ 2)) by nra. assert (I : 0 < / ((1 + a ^ 2) * (1 + b ^ 2)) <= 1). { split; [apply Rinv_0_lt_compat; lra|]. rewrite <- Rinv_1. apply Rinv_le_contravar; lra. }
  rewrite (Rabs_pos_eq (/ _)) by lra. rewrite <- (Rmult_1_r (2 * Rabs (a ^ 2 - b ^ 2))) at 2. apply Rmult_le_compat_l; [|lra]. pose proof (Rabs_pos (a ^ 2 - b ^ 2)). lra.
Qed.
Lemma cancel_left d A X Y w : d * / w * (X - Y) = d * (A + X) / w - d * (A + Y) / w.
Proof. unfold Rdiv. ring. Qed.
Lemma focus_near e : u <= e -> e <= / 1000 -> Rabs (fl (38739435 / 100000) - 38739435 / 100000) <= 388 * e.
Proof. intros Ue E1. pose proof (e_pos e Ue). eapply Rle_trans; [apply (fl_err e _ Ue)|]. rewrite Rabs_pos_eq by lra. pose proof tiny_1. rewrite Rmult_comm. apply Rmult_le_compat_r; lra. Qed.
Lemma opd_eff_near e h x y x64 y64 d_z wavel : u <= e -> e <= / 1000 -> 1 <= h -> h * e <= / 2000 -> Rabs (x64 - x) <= h * e * 50 -> Rabs (y64 - y) <= h * e * 50 -> x ^ 2 + y ^ 2 <= 50 ^ 2 -> d_z = 0 \/ / 2 ^ 100 <= Rabs d_z -> / 2 ^ 100 <= wavel <= 2 ^ 100 ->
  near e (12 * h + 72) (2 * Rabs d_z / wavel) (fl (opd_effelsberg64 x64 y64 d_z / wavel)) (opd_effelsberg x y d_z / wavel).
Proof.
  intros Ue E1 H1 He Dx Dy In Hz Hw. pose proof (e_pos e Ue) as P. assert (P0 : 0 < / 2 ^ 100) by (apply Rinv_0_lt_compat, pow_lt; lra). assert (P100 : / 2 ^ 100 <= / 1000). { apply Rinv_le_contravar; [lra|]. apply Rle_trans with (2 ^ 10); [lra|apply Rle_pow; [lra|lia]]. }
  pose proof (focus_near e Ue E1) as Fn. set (F := 38739435 / 100000) in *. set (F' := fl F) in *. apply Rabs_le_iff in Fn as Fn'. assert (HF : F = 38739435 / 100000) by reflexivity. assert (HF' : 387 - 1 <= F' <= 388) by (rewrite HF in Fn'; lra).
  assert (Rin : rr x y <= 50). { unfold rr. rewrite <- (sqrt_pow2 50) by lra. apply sqrt_le_1_alt. lra. } assert (R0 : 0 <= rr x y) by apply sqrt_pos.
  pose proof (opd_near e Ue E1 50 h x y x64 y64 ltac:(lra) ltac:(lra) ltac:(lra) Dx Dy 30 F' d_z wavel Rin ltac:(lra) ltac:(lra) Hz Hw) as [NO _].
  change (opd_effelsberg64 x64 y64 d_z) with (opd_manual64 30 F' x64 y64 d_z). change (opd_effelsberg x y d_z) with (opd_manual 30 F x y d_z).
  set (T := Rabs d_z / wavel). assert (T0 : 0 <= T) by (unfold T; apply Rmult_le_pos; [apply Rabs_pos|left; apply Rinv_0_lt_compat; lra]). replace (2 * Rabs d_z / wavel) with (2 * T) in * by (unfold T; field; lra).
  assert (Diff : Rabs (opd_manual 30 F' x y d_z / wavel - opd_manual 30 F x y d_z / wavel) <= e * T).
  { unfold opd_manual. fold (rr x y). set (r := rr x y) in *. match goal with |- Rabs (d_z * (?A + ?X) / wavel - d_z * (?A + ?Y) / wavel) <= _ => replace (d_z * (A + X) / wavel - d_z * (A + Y) / wavel) with (d_z * / wavel * (X - Y)) by apply cancel_left end.
    rewrite Rabs_mult, Rabs_mult, (Rabs_pos_eq (/ wavel)) by (left; apply Rinv_0_lt_compat; lra). change (Rabs d_z * / wavel) with T. rewrite (Rmult_comm e). apply Rmult_le_compat_l; [exact T0|]. eapply Rle_trans; [apply term_diff|].
    replace ((r / (2 * F')) ^ 2 - (r / (2 * F)) ^ 2) with (r ^ 2 * / 4 * (F + F') * (F - F') * / (F ^ 2 * F' ^ 2)) by (field; rewrite HF; lra).
    assert (F2 : 387 * 386 * (387 * 386) <= F ^ 2 * F' ^ 2). { replace (F ^ 2 * F' ^ 2) with (F * F' * (F * F')) by ring. assert (387 * 386 <= F * F') by (apply Rmult_le_compat; rewrite ?HF; lra). apply Rmult_le_compat; lra. }
    assert (I2 : 0 < / (F ^ 2 * F' ^ 2) <= / (387 * 386 * (387 * 386))) by (split; [apply Rinv_0_lt_compat; lra|apply Rinv_le_contravar; lra]).
    assert (r2 : 0 <= r ^ 2 <= 2500) by (split; [apply pow2_ge_0|nra]). rewrite !Rabs_mult, (Rabs_pos_eq (r ^ 2)), (Rabs_pos_eq (/ 4)), (Rabs_pos_eq (F + F')), (Rabs_pos_eq (/ (F ^ 2 * F' ^ 2))), (Rabs_minus_sym F F') by first [lra|rewrite HF; lra].
    assert (A1 : r ^ 2 * / 4 * (F + F') <= 625 * 776) by (apply Rmult_le_compat; rewrite ?HF; lra). assert (A0 : 0 <= r ^ 2 * / 4 * (F + F')) by (apply Rmult_le_pos; rewrite ?HF; lra).
    assert (A2 : r ^ 2 * / 4 * (F + F') * Rabs (F' - F) <= 625 * 776 * (388 * e)) by (apply Rmult_le_compat; [exact A0|apply Rabs_pos|exact A1|exact Fn]).
    assert (A3 : r ^ 2 * / 4 * (F + F') * Rabs (F' - F) * / (F ^ 2 * F' ^ 2) <= 625 * 776 * (388 * e) * / (387 * 386 * (387 * 386))) by (apply Rmult_le_compat; [apply Rmult_le_pos; [exact A0|apply Rabs_pos]|lra|exact A2|lra]). lra. }
  split.
  - replace (fl (opd_manual64 30 F' x64 y64 d_z / wavel) - opd_manual 30 F x y d_z / wavel) with ((fl (opd_manual64 30 F' x64 y64 d_z / wavel) - opd_manual 30 F' x y d_z / wavel) + (opd_manual 30 F' x y d_z / wavel - opd_manual 30 F x y d_z / wavel)) by ring.
    eapply Rle_trans; [apply Rabs_triang|]. assert (0 <= e * T) by (apply Rmult_le_pos; lra). assert (0 <= h * (e * T)) by (apply Rmult_le_pos; lra). lra.
  - pose proof (opd_near e Ue E1 50 h x y x64 y64 ltac:(lra) ltac:(lra) ltac:(lra) Dx Dy 30 F d_z wavel Rin ltac:(lra) ltac:(rewrite HF; lra) Hz Hw) as [_ NB]. replace (2 * Rabs d_z / wavel) with (2 * T) in NB by (unfold T; field; lra). exact NB.
Qed.

(** ** The mask on the grid *)
Section Mask.
Variables (e alpha C D bf : R) (mcsc2 mtan : R -> R) (N : nat).
Hypothesis Ue : u <= e.
Hypothesis Hl : accurate_slopes e mcsc2 mtan alpha.
Hypothesis Hbf : 1 <= bf.
Hypothesis Hmax : 50 * bf <= 2 ^ 100.
Hypothesis Hsm : bf * e <= / 100000.
Hypothesis HN : INR N <= 2 ^ 40.
Hypothesis N2 : (2 <= N)%nat.
Hypothesis Ha : 0 < alpha <= PI / 4.
Hypothesis Hs : / 1000 <= sin alpha.
Hypothesis Hc : far_corner alpha C D.
Let B := 50 * bf.
Let x64 (i : nat) := linspace64 (- fl B) (fl B) N i.
Lemma clear_less t t' B0 pr sr a L x y : t <= t' -> 0 <= B0 -> clear t' B0 pr sr a L x y -> clear t B0 pr sr a L x y.
Proof.
  intros H HB (C1 & C2 & C3). assert (t * B0 ^ 2 <= t' * B0 ^ 2) by (apply Rmult_le_compat_r; [apply pow2_ge_0|exact H]). assert (t * B0 <= t' * B0) by (apply Rmult_le_compat_r; assumption).
  split; [lra|]. split; [lra|]. intros z edge Hz He. specialize (C3 z edge Hz He). lra.
Qed.
Lemma mask_eff i j : (i < N)%nat -> (j < N)%nat -> clear_effelsberg (800 * e) B C D (sample B N i) (sample B N j) ->
  block_effelsberg64 mcsc2 mtan alpha (x64 i) (x64 j) = block_effelsberg alpha (sample B N i) (sample B N j).
Proof.
  intros Hi Hj Hcl. pose proof (e_pos e Ue) as P. assert (ee : e <= bf * e) by nra. assert (P100 : / 2 ^ 100 <= / 1000). { apply Rinv_le_contravar; [lra|]. apply Rle_trans with (2 ^ 10); [lra|apply Rle_pow; [lra|lia]]. }
  pose proof (box_grid e 50 bf N Ue ltac:(lra) Hbf Hmax HN N2 i Hi) as Gx. pose proof (box_grid e 50 bf N Ue ltac:(lra) Hbf Hmax HN N2 j Hj) as Gy. rewrite node_sample in Gx, Gy by exact N2.
  destruct Hc as (K1 & K2 & K3). pose proof (alpha_small alpha Ha) as As. destruct (corner alpha As) as (J1 & J2 & J3). destruct (corner_unique alpha C D _ _ As K1 K2 K3 J1 J2 J3) as [-> ->].
  apply (effelsberg_agrees e alpha mcsc2 mtan Ue ltac:(lra) Ha Hs Hl B ltac:(unfold B; lra) ltac:(unfold B; lra)); [exact Gx|exact Gy|exact Hcl|].
  pose proof (block_agrees e 50 bf N Ue ltac:(lra) ltac:(lra) Hbf Hmax HN N2 (13 / 4) 1 20 ltac:(lra) ltac:(lra) ltac:(lra) i j Hi Hj) as Ba. rewrite !node_sample in Ba by exact N2. apply Ba. apply clear_less with (t' := 800 * e); [lra|lra|apply Hcl].
Qed.
End Mask.

Section Api.
Variables (e ef alpha C D : R) (m : maths) (mcsc2 mtan : R -> R) (n : nat) (K : list R) (bf wavel d_z i_amp c_dB q x0 y0 : R) (N : nat).
Hypothesis Ue : u <= e.
Hypothesis Hm : accurate_maths e m.
Hypothesis Hl : accurate_slopes e mcsc2 mtan alpha.
Hypothesis Hw : reach_effelsberg e alpha C D n K bf wavel d_z i_amp c_dB q x0 y0 N.
Let fe := field_loss n bf q (turns K d_z wavel) * e.
Let Ic := [i_amp; c_dB; q; x0; y0].
Let B := 50 * bf.
Let x64 (i : nat) := linspace64 (- fl B) (fl B) N i.
Let Bl := block_effelsberg alpha.
Let Ea := fun x y => match illum_parabolic Ic 50 with Ok f => f x y | Err _ => 0 end.
Let Ea64 := fun x y => match illum_parabolic64 m Ic 50 with Ok f => f x y | Err _ => 0 end.

Lemma eff_small : 370 * bf * e <= fe /\ 130 * q * bf * e <= fe /\ fe <= / 1000 /\ 1 <= bf /\ 1 <= q.
Proof.
  destruct Hw as (A1 & A2 & (B1 & B2 & B3 & B4 & B5 & B6) & _ & _ & _ & _ & Hq & Hs). assert (De : 0 <= 2 * Rabs d_z / wavel). { apply Rmult_le_pos; [pose proof (Rabs_pos d_z); lra|left; apply Rinv_0_lt_compat]. assert (0 < / 2 ^ 100) by (apply Rinv_0_lt_compat, pow_lt; lra). lra. }
  assert (L1 : (1 <= length K)%nat) by nia. destruct (size_tiny K L1) as [S1 S2]. pose proof tiny_pos. assert (Ht : 0 <= turns K d_z wavel) by (unfold turns; fold (size K); lra).
  destruct (field_loss_le n bf q (turns K d_z wavel) B1 Hq Ht) as (F1 & F2 & F3 & F4). pose proof (e_pos e Ue) as P. pose proof (loss_12 n). split; [unfold fe; apply Rmult_le_compat_r; lra|]. split; [unfold fe; apply Rmult_le_compat_r; [lra|]|split; [exact Hs|split; assumption]].
  assert (0 <= 2 * PI * turns K d_z wavel) by (pose proof PI_RGT_0; apply Rmult_le_pos; lra). unfold field_loss. assert (0 <= bf * (20 * loss n * (1 + 2 * PI * turns K d_z wavel))) by (apply Rmult_le_pos; [lra|apply Rmult_le_pos; lra]). lra.
Qed.
Lemma eff_mask i j : (i < N)%nat -> (j < N)%nat -> block_dist (eff64 mcsc2 mtan alpha) (x64 i) (x64 j) = block_dist (eff alpha) (sample B N i) (sample B N j).
Proof.
  intros Hi Hj. destruct eff_small as (S1 & _ & S2 & S3 & _). destruct Hw as (A1 & A2 & (B1 & B2 & B3 & B4 & B5 & B6) & (G1 & G2 & G3) & Hs & _). apply (mask_eff e alpha C D bf mcsc2 mtan N); try assumption; [lra|]. apply Hs; assumption.
Qed.
Lemma eff_in i j : (i < N)%nat -> (j < N)%nat -> block_dist (eff alpha) (sample B N i) (sample B N j) <> 0 -> sample B N i ^ 2 + sample B N j ^ 2 <= 50 ^ 2 - 100 * e * B ^ 2.
Proof.
  intros Hi Hj Ho. destruct Hw as (_ & _ & _ & (G1 & G2 & G3) & Hs & _). destruct (Hs i j Hi Hj) as [((C1 & _) & _) _]. fold B in C1. pose proof (e_pos e Ue) as P. pose proof (pow2_ge_0 B) as PB.
  assert (In : sample B N i ^ 2 + sample B N j ^ 2 < 50 ^ 2). { assert (Hsin : sin alpha <> 0) by lra. destruct (block_effelsberg_iff alpha (sample B N i) (sample B N j) Hsin) as [[V|V] W]; [contradiction|]. apply (proj1 W) in V as (V & _). apply V. }
  rewrite Rabs_left in C1 by lra. assert (0 <= e * B ^ 2) by (apply Rmult_le_pos; lra). lra.
Qed.
Lemma eff_steps i j : (i < N)%nat -> (j < N)%nat -> Rabs (x64 i - sample B N i) <= 10 * bf * e * 50 /\ Rabs (x64 j - sample B N j) <= 10 * bf * e * 50.
Proof.
  intros Hi Hj. destruct Hw as (A1 & A2 & (B1 & B2 & B3 & B4 & B5 & B6) & _). assert (P100 : / 2 ^ 100 <= / 1000). { apply Rinv_le_contravar; [lra|]. apply Rle_trans with (2 ^ 10); [lra|apply Rle_pow; [lra|lia]]. }
  pose proof (box_grid e 50 bf N Ue ltac:(lra) B1 B2 B3 B4 i Hi) as [Gx _]. pose proof (box_grid e 50 bf N Ue ltac:(lra) B1 B2 B3 B4 j Hj) as [Gy _]. rewrite node_sample in Gx, Gy by exact B4. fold B in Gx, Gy. fold (x64 i) in Gx. fold (x64 j) in Gy. split; (eapply Rle_trans; [eassumption|]; unfold B; right; ring).
Qed.
Lemma eff_opd i j : (i < N)%nat -> (j < N)%nat -> block_dist (eff alpha) (sample B N i) (sample B N j) <> 0 ->
  near e (12 * (10 * bf) + 72) (2 * Rabs d_z / wavel) (fl (opd_func (eff64 mcsc2 mtan alpha) (x64 i) (x64 j) d_z / wavel)) (opd_func (eff alpha) (sample B N i) (sample B N j) d_z / wavel).
Proof.
  intros Hi Hj Ho. destruct eff_small as (S1 & _ & S2 & S3 & _). pose proof (eff_in i j Hi Hj Ho) as In. destruct (eff_steps i j Hi Hj) as [D1 D2]. destruct Hw as (A1 & A2 & (B1 & B2 & B3 & B4 & B5 & B6) & _). pose proof (e_pos e Ue) as P. assert (ee : e <= bf * e) by nra.
  pose proof (pow2_ge_0 B) as PB. assert (0 <= e * B ^ 2) by (apply Rmult_le_pos; lra). cbn [eff eff64 opd_func]. apply opd_eff_near; try assumption; lra.
Qed.
Lemma eff_illum i j : (i < N)%nat -> (j < N)%nat -> block_dist (eff alpha) (sample B N i) (sample B N j) <> 0 -> near e (122 * q * bf) (Rabs i_amp) (Ea64 (x64 i) (x64 j)) (Ea (sample B N i) (sample B N j)).
Proof.
  intros Hi Hj Ho. destruct eff_small as (S1 & S0 & S2 & S3 & S4). destruct (eff_steps i j Hi Hj) as [D1 D2]. destruct Hw as (A1 & A2 & (B1 & B2 & B3 & B4 & B5 & B6) & _ & Hs & Hamp & Hc & Hq & _). destruct (Hs i j Hi Hj) as [_ Hin]. specialize (Hin Ho). fold B in Hin. pose proof (e_pos e Ue) as P. assert (ee : e <= bf * e) by nra.
  assert (P100 : / 2 ^ 100 <= / 1000). { apply Rinv_le_contravar; [lra|]. apply Rle_trans with (2 ^ 10); [lra|apply Rle_pow; [lra|lia]]. } assert (qe : q * e <= q * bf * e) by nra.
  assert (HB2 : bf * 50 ^ 2 * e <= e * B ^ 2 /\ 50 ^ 2 * e <= e * B ^ 2). { unfold B. replace (e * (50 * bf) ^ 2) with (bf * bf * (50 ^ 2 * e)) by ring. assert (bf <= bf * bf) by nra. split; [replace (bf * 50 ^ 2 * e) with (bf * (50 ^ 2 * e)) by ring|rewrite <- (Rmult_1_l (50 ^ 2 * e)) at 1]; apply Rmult_le_compat_r; lra. }
  assert (Z1 : q * (5 * (10 * bf) + 30) * e <= / 50). { replace (q * (5 * (10 * bf) + 30) * e) with (50 * (q * bf * e) + 30 * (q * e)) by ring. lra. }
  destruct (illum_near e Ue ltac:(lra) m Hm 50 (10 * bf) (sample B N i) (sample B N j) (x64 i) (x64 j) ltac:(lra) ltac:(lra) ltac:(lra) D1 D2 i_amp c_dB q x0 y0 Hamp Hc Hq Z1 ltac:(lra)) as (Ea0 & Ea1 & IE & IE64 & NI).
  unfold Ea, Ea64, Ic. rewrite IE, IE64. apply (near_le e Ue) with (2 := NI). assert (q <= q * bf) by nra. lra.
Qed.
Lemma eff_ok : illum_parabolic Ic 50 = Ok Ea /\ illum_parabolic64 m Ic 50 = Ok Ea64.
Proof. split; reflexivity. Qed.

Lemma eff_field : exists E E64, aperture illum_parabolic (eff alpha) Ic K d_z wavel = Ok E /\ aperture64 m (illum_parabolic64 m) (eff64 mcsc2 mtan alpha) Ic K d_z wavel = Ok E64 /\
  forall i j, (i < N)%nat -> (j < N)%nat -> Cmod (Cminus (E64 (x64 i) (x64 j)) (E (sample B N i) (sample B N j))) <= 2 * fe * Rabs i_amp * Bl (sample B N i) (sample B N j).
Proof.
  destruct eff_small as (S1 & S0 & S2 & S3 & S4). destruct eff_ok as [O1 O2]. pose proof eff_mask as X1. pose proof eff_in as X2. pose proof eff_opd as X3. pose proof eff_illum as X4. destruct Hw as (A1 & A2 & (B1 & B2 & B3 & B4 & B5 & B6) & (G1 & G2 & G3) & Hs & Hamp & Hc & Hq & Hsm).
  assert (P100 : / 2 ^ 100 <= 50). { apply Rle_trans with (/ 1); [|lra]. apply Rinv_le_contravar; [lra|]. apply Rle_trans with (2 ^ 10); [lra|apply Rle_pow; [lra|lia]]. }
  destruct (pixel_tel e m n K (eff alpha) (eff64 mcsc2 mtan alpha) 50 bf wavel d_z q N illum_parabolic (illum_parabolic64 m) Ic Ea Ea64 (Rabs i_amp) Ue Hm A1 A2 eq_refl eq_refl (conj P100 (conj B1 (conj B2 (conj B3 (conj B4 B6))))) X1 (fun x y => block_effelsberg_01 alpha x y) X2 X3 O1 O2 Hamp X4 Hq Hsm) as (E & E64 & R1 & R2 & HE).
  exists E, E64. split; [exact R1|]. split; [exact R2|]. intros i j Hi Hj. exact (proj1 (HE i j Hi Hj)).
Qed.
Hypothesis Hfft : accurate_fft ef (m_fft m).
Hypothesis Hef : 0 <= ef <= / 1000.
Lemma eff_pattern : exists ua va F0 ua64 va64 F64, radiation_pattern illum_parabolic (eff alpha) Ic K d_z wavel N bf = Ok (ua, va, F0) /\ radiation_pattern64 m (illum_parabolic64 m) (eff64 mcsc2 mtan alpha) Ic K d_z wavel N bf = Ok (ua64, va64, F64) /\
  length ua64 = N /\ va64 = ua64 /\ length F64 = N /\ (forall i, (i < N)%nat -> Rabs (nth i ua64 0 - nth i ua 0) <= INR N * / 2 ^ 49 * Rabs (nth i ua 0)) /\
  forall j i, (j < N)%nat -> (i < N)%nat -> length (nth j F64 []) = N /\ Cmod (Cminus (at2 F64 j i) (at2 F0 j i)) <= 2 * (fe + ef) * (Rabs i_amp * over_samples B N Bl).
Proof.
  destruct eff_small as (S1 & S0 & S2 & S3 & S4). destruct eff_ok as [O1 O2]. pose proof eff_mask as X1. pose proof eff_in as X2. pose proof eff_opd as X3. pose proof eff_illum as X4. destruct Hw as (A1 & A2 & (B1 & B2 & B3 & B4 & B5 & B6) & (G1 & G2 & G3) & Hs & Hamp & Hc & Hq & Hsm).
  assert (P100 : / 2 ^ 100 <= 50). { apply Rle_trans with (/ 1); [|lra]. apply Rinv_le_contravar; [lra|]. apply Rle_trans with (2 ^ 10); [lra|apply Rle_pow; [lra|lia]]. }
  destruct (pattern_tel e ef m n K (eff alpha) (eff64 mcsc2 mtan alpha) 50 bf wavel d_z q N illum_parabolic (illum_parabolic64 m) Ic Ea Ea64 (Rabs i_amp) Ue Hm A1 A2 eq_refl eq_refl (conj P100 (conj B1 (conj B2 (conj B3 (conj B4 B6))))) X1 (fun x y => block_effelsberg_01 alpha x y) X2 X3 O1 O2 Hamp X4 Hq Hsm Hfft Hef) as (ua & va & F0 & ua64 & va64 & F64 & E1 & E2 & Hu & Hv & R0 & R64 & H).
  exists ua, va, F0, ua64, va64, F64. split; [exact E1|]. split; [exact E2|]. split; [rewrite Hu, map_length, seq_length; reflexivity|]. split; [exact Hv|]. split; [apply R64|]. split.
  - intros i Hi. rewrite Hu. rewrite nth_indep with (d' := u_axis64 50 bf wavel N O) by (rewrite map_length, seq_length; exact Hi). rewrite map_nth, seq_nth by exact Hi. cbn [Nat.add].
    apply (u_axis_err illum_parabolic (eff alpha) Ic K d_z wavel N bf ua va F0); [cbn [eff tel_pr]; split; [lra|exact B2]|exact B6|exact B3|exact E1|exact Hi].
  - intros j i Hj Hi. split; [destruct R64 as [RL RR]; apply RR, nth_In; rewrite RL; exact Hj|]. exact (proj1 (H j i Hj Hi)).
Qed.
Lemma eff_open i j : (i < N)%nat -> (j < N)%nat -> Bl (sample B N i) (sample B N j) <> 0 -> 1 <= over_samples B N Bl.
Proof.
  intros Hi Hj H. assert (Nn : forall x y, 0 <= Bl x y) by (intros x y; unfold Bl; destruct (block_effelsberg_01 alpha x y) as [->| ->]; lra). destruct (block_effelsberg_01 alpha (sample B N i) (sample B N j)) as [Z|Z]; [contradiction|]. unfold over_samples.
  eapply Rle_trans; [|apply (Rsum_ge N (fun j => Rsum N (fun i => Bl (sample B N i) (sample B N j))) j); [|exact Hj]].
  - eapply Rle_trans; [|apply (Rsum_ge N (fun i => Bl (sample B N i) (sample B N j)) i); [intros; apply Nn|exact Hi]]. cbv beta. unfold Bl. lra.
  - intros k. apply Rsum_nonneg. intros. apply Nn.
Qed.
Lemma eff_power : (exists i j, (i < N)%nat /\ (j < N)%nat /\ Bl (sample B N i) (sample B N j) <> 0) ->
  exists ua va F0 ua64 va64 F64, radiation_pattern illum_parabolic (eff alpha) Ic K d_z wavel N bf = Ok (ua, va, F0) /\ radiation_pattern64 m (illum_parabolic64 m) (eff64 mcsc2 mtan alpha) Ic K d_z wavel N bf = Ok (ua64, va64, F64) /\
  let top := (Rabs i_amp * over_samples B N Bl) ^ 2 in
  forall j i, (j < N)%nat -> (i < N)%nat -> Rabs (nth i (nth j (power_pattern64 m F64) []) 0 - nth i (nth j (power_pattern F0) []) 0) <= 5 * (fe + ef) * top /\ 0 <= nth i (nth j (power_pattern F0) []) 0 <= top.
Proof.
  intros (i0 & j0 & Hi0 & Hj0 & Ho). pose proof (eff_open i0 j0 Hi0 Hj0 Ho) as HM. destruct eff_small as (S1 & S0 & S2 & S3 & S4). destruct eff_ok as [O1 O2]. pose proof eff_mask as X1. pose proof eff_in as X2. pose proof eff_opd as X3. pose proof eff_illum as X4. destruct Hw as (A1 & A2 & (B1 & B2 & B3 & B4 & B5 & B6) & (G1 & G2 & G3) & Hs & Hamp & Hc & Hq & Hsm).
  assert (P100 : / 2 ^ 100 <= 50). { apply Rle_trans with (/ 1); [|lra]. apply Rinv_le_contravar; [lra|]. apply Rle_trans with (2 ^ 10); [lra|apply Rle_pow; [lra|lia]]. }
  exact (power_tel e ef m n K (eff alpha) (eff64 mcsc2 mtan alpha) 50 bf wavel d_z q N illum_parabolic (illum_parabolic64 m) Ic Ea Ea64 (Rabs i_amp) Ue Hm A1 A2 eq_refl eq_refl (conj P100 (conj B1 (conj B2 (conj B3 (conj B4 B6))))) X1 (fun x y => block_effelsberg_01 alpha x y) X2 X3 O1 O2 Hamp X4 Hq Hsm Hfft Hef HM).
Qed.
End Api.

(** ** Exceptions *)
Lemma eff_alike m mcsc2 mtan alpha Ic K d_z wavel N bf er : (8 * Z.of_nat (length K) + 1 < 2 ^ 53)%Z ->
  (radiation_pattern illum_parabolic (eff alpha) Ic K d_z wavel N bf = Err er <-> radiation_pattern64 m (illum_parabolic64 m) (eff64 mcsc2 mtan alpha) Ic K d_z wavel N bf = Err er).
Proof.
  intros H53. destruct (le_lt_dec 2 N) as [N2|N2].
  - rewrite rad_unfold, rad64_unfold by exact N2. cbv zeta. unfold aperture, aperture64. pose proof (alike_W (m_lm m) K H53) as A.
    destruct (wavefront K) as [W|ee] eqn:EW; destruct (wavefront64 (m_lm m) K) as [W64|ee'] eqn:EW64; cbn [bind].
    + assert (X : (exists v, illum_parabolic Ic 50 = Ok v) /\ (exists v, illum_parabolic64 m Ic 50 = Ok v) \/ illum_parabolic Ic 50 = Err ValueError /\ illum_parabolic64 m Ic 50 = Err ValueError).
      { unfold illum_parabolic, illum_parabolic64. destruct Ic as [|? [|? [|? [|? [|? [|? ?]]]]]]; try (right; split; reflexivity). left. split; eexists; reflexivity. }
      cbn [eff eff64 tel_pr]. destruct X as [[[v ->] [v' ->]]|[-> ->]]; cbn [bind]; split; intros X; congruence.
    + exfalso. destruct (A ee') as [_ A2]. specialize (A2 eq_refl). discriminate.
    + exfalso. destruct (A ee) as [A1 _]. specialize (A1 eq_refl). discriminate.
    + destruct (A ee) as [A1 _]. specialize (A1 eq_refl). split; intros X; congruence.
  - rewrite rad_small by exact N2. unfold radiation_pattern64. cbv zeta. unfold py_get. destruct N as [|[|N']]; [| |lia]; cbn [seq map nth_error bind]; reflexivity.
Qed.

(** ** A concrete case: leg angle 30 degrees, 16 points on 1.2 times the dish *)
Definition corner_d : R := (sqrt 9997 - 1) / 4.
Definition corner_C : R := corner_d * sqrt 3.
Definition corner_D : R := 1 + corner_d.
Lemma corner_d_range : 24745 / 1000 <= corner_d <= 2475 / 100.
Proof.
  unfold corner_d. assert (9998 / 100 <= sqrt 9997). { replace (9998 / 100) with (sqrt (9998 / 100 * (9998 / 100))) by (apply sqrt_square; lra). apply sqrt_le_1_alt. lra. }
  assert (sqrt 9997 <= 100). { replace 100 with (sqrt (100 * 100)) by (apply sqrt_square; lra). apply sqrt_le_1_alt. lra. } lra.
Qed.
Lemma sqrt3_range : 1732 / 1000 <= sqrt 3 <= 17321 / 10000.
Proof. split; [replace (1732 / 1000) with (sqrt (1732 / 1000 * (1732 / 1000))) by (apply sqrt_square; lra)|replace (17321 / 10000) with (sqrt (17321 / 10000 * (17321 / 10000))) by (apply sqrt_square; lra)]; apply sqrt_le_1_alt; lra. Qed.
Lemma corner_C_range : 4285 / 100 <= corner_C <= 4287 / 100.
Proof. pose proof corner_d_range. pose proof sqrt3_range. unfold corner_C. split; [apply Rle_trans with (24745 / 1000 * (1732 / 1000)); [lra|]|apply Rle_trans with (2475 / 100 * (17321 / 10000)); [|lra]]; apply Rmult_le_compat; lra. Qed.
Lemma corner_far : far_corner (PI / 6) corner_C corner_D.
Proof.
  pose proof corner_d_range. pose proof corner_C_range. pose proof sqrt3_range. assert (S3 : sqrt 3 * sqrt 3 = 3) by (apply sqrt_sqrt; lra). split; [lra|]. split.
  - rewrite tan_PI6. unfold corner_C, corner_D. field. lra.
  - unfold corner_C, corner_D. replace ((corner_d * sqrt 3) ^ 2) with (corner_d ^ 2 * (sqrt 3 * sqrt 3)) by ring. rewrite S3. unfold corner_d. set (s := sqrt 9997). assert (Ss : s * s = 9997) by (apply sqrt_sqrt; lra). replace (((s - 1) / 4) ^ 2 * 3 + (1 + (s - 1) / 4) ^ 2) with ((s * s + 3) / 4) by field. rewrite Ss. lra.
Qed.
Lemma corner_slope : 126 / 100 <= (corner_D - 1) / (corner_C - 93 / 4) <= 1264 / 1000.
Proof.
  pose proof corner_d_range. pose proof corner_C_range. unfold corner_D. replace (1 + corner_d - 1) with corner_d by ring. set (g := corner_C - 93 / 4). assert (G : 196 / 10 <= g <= 1962 / 100) by (unfold g; lra).
  split; (apply Rmult_le_reg_r with g; [lra|]); unfold Rdiv at 2; rewrite ?(Rmult_assoc corner_d), ?Rinv_l by lra; [|unfold Rdiv; rewrite Rmult_assoc, Rinv_l by lra]; nra.
Qed.
Lemma sample_16 i : sample (50 * (6 / 5)) 16 i = 4 * IZR (2 * Z.of_nat i - 15).
Proof. unfold sample. rewrite (INR_IZR_INZ i). replace (INR 16) with 16 by (rewrite INR_IZR_INZ; reflexivity). rewrite minus_IZR, mult_IZR. field. Qed.
Lemma gap_around (k c : Z) (v : R) : IZR c + / 100 <= v <= IZR (c + 1) - / 100 -> / 100 <= Rabs (IZR k - v).
Proof. intros H. destruct (Z_le_gt_dec k c) as [G|G]; [apply IZR_le in G; rewrite Rabs_left1 by lra; lra|]. assert (G' : (c + 1 <= k)%Z) by lia. apply IZR_le in G'. rewrite Rabs_pos_eq by lra. lra. Qed.
Lemma grid_clear i j : let x := sample (50 * (6 / 5)) 16 i in let y := sample (50 * (6 / 5)) 16 j in clear_effelsberg (800 * / 2 ^ 52) (50 * (6 / 5)) corner_C corner_D x y.
Proof.
  cbv zeta. rewrite !sample_16. set (k := (2 * Z.of_nat i - 15)%Z). set (l := (2 * Z.of_nat j - 15)%Z).
  assert (Ok : exists a, (k = 2 * a + 1)%Z) by (exists (Z.of_nat i - 8)%Z; unfold k; lia). assert (Ol : exists a, (l = 2 * a + 1)%Z) by (exists (Z.of_nat j - 8)%Z; unfold l; lia). clearbody k l.
  assert (I52 : 0 < / 2 ^ 52 <= / 2 ^ 40) by (split; [apply Rinv_0_lt_compat, pow_lt; lra|apply Rinv_le_contravar; [apply pow_lt; lra|apply Rle_pow; [lra|lia]]]). set (v := / 2 ^ 52) in *. assert (V : v <= / 1000000000) by lra. clearbody v.
  assert (M2 : 800 * v * (50 * (6 / 5)) ^ 2 < / 100) by lra. assert (M1 : 800 * v * (50 * (6 / 5)) < / 100) by lra.
  assert (Ab : forall t, Rabs (4 * IZR t) = 4 * IZR (Z.abs t)) by (intros t; rewrite Rabs_mult, (Rabs_pos_eq 4), abs_IZR by lra; reflexivity).
  assert (Sc : forall t c (w : R), IZR c + / 100 <= w / 4 <= IZR (c + 1) - / 100 -> / 100 <= Rabs (4 * IZR t - w)). { intros t c w H. pose proof (gap_around t c (w / 4) H) as G. replace (4 * IZR t - w) with (4 * (IZR t - w / 4)) by field. rewrite Rabs_mult, (Rabs_pos_eq 4) by lra. lra. }
  assert (Sq : forall w c, IZR c + / 100 <= w / 16 <= IZR (c + 1) - / 100 -> / 100 <= Rabs ((4 * IZR k) ^ 2 + (4 * IZR l) ^ 2 - w)). { intros w c H. pose proof (gap_around (k * k + l * l) c (w / 16) H) as G. replace ((4 * IZR k) ^ 2 + (4 * IZR l) ^ 2 - w) with (16 * (IZR (k * k + l * l) - w / 16)) by (rewrite plus_IZR, !mult_IZR; field). rewrite Rabs_mult, (Rabs_pos_eq 16) by lra. lra. }
  split; [split; [|split]|].
  - eapply Rlt_le_trans; [exact M2|]. apply (Sq (50 ^ 2) 156%Z). change (156 + 1)%Z with 157%Z. lra.
  - eapply Rlt_le_trans; [exact M2|]. apply (Sq ((13 / 4) ^ 2) 0%Z). change (0 + 1)%Z with 1%Z. lra.
  - intros z edge Hz He. assert (exists t, z = 4 * IZR t) as [t ->] by (destruct Hz as [-> | ->]; eexists; reflexivity). rewrite Ab. eapply Rlt_le_trans; [exact M1|]. destruct He as [-> | ->]; [apply (Sc _ 5%Z); change (5 + 1)%Z with 6%Z; lra|apply (Sc _ 0%Z); change (0 + 1)%Z with 1%Z; lra].
  - intros p q Hpq. assert (exists t, p = 4 * IZR t /\ exists a, (t = 2 * a + 1)%Z) as (t & Hp & a & Ot) by (destruct Hpq as [[-> _]|[-> _]]; eexists; (split; [reflexivity|assumption])). assert (exists t', q = 4 * IZR t') as [t' Hq] by (destruct Hpq as [[_ ->]|[_ ->]]; eexists; reflexivity). subst p q. rewrite !Ab. pose proof corner_C_range as CR. split.
    + eapply Rlt_le_trans; [exact M1|]. apply (Sc _ 10%Z). change (10 + 1)%Z with 11%Z. lra.
    + intros [H1 H2]. eapply Rlt_le_trans; [exact M1|]. assert (T : (Z.abs t = 7 \/ Z.abs t = 9)%Z). { assert (5 < Z.abs t)%Z by (apply lt_IZR; lra). assert (Z.abs t < 11)%Z by (apply lt_IZR; lra). lia. }
      pose proof corner_slope as SL. set (s := (corner_D - 1) / (corner_C - 93 / 4)) in *. destruct T as [-> | ->]; [apply (Sc _ 1%Z)|apply (Sc _ 4%Z)]; match goal with |- context [IZR (?a + 1)] => let b := eval compute in (a + 1)%Z in change (a + 1)%Z with b end; lra.
Qed.
Lemma grid_open i j : block_effelsberg (PI / 6) (sample (50 * (6 / 5)) 16 i) (sample (50 * (6 / 5)) 16 j) <> 0 -> sample (50 * (6 / 5)) 16 i ^ 2 + sample (50 * (6 / 5)) 16 j ^ 2 < 50 ^ 2.
Proof.
  intros H. assert (Hsin : sin (PI / 6) <> 0) by (rewrite sin_PI6; lra). destruct (block_effelsberg_iff (PI / 6) (sample (50 * (6 / 5)) 16 i) (sample (50 * (6 / 5)) 16 j) Hsin) as [[V|V] W]; [contradiction|]. apply (proj1 W) in V as (V & _). apply V.
Qed.
Lemma twelve_open : block_effelsberg (PI / 6) (sample (50 * (6 / 5)) 16 9) (sample (50 * (6 / 5)) 16 9) <> 0.
Proof.
  rewrite sample_16. replace (2 * Z.of_nat 9 - 15)%Z with 3%Z by reflexivity. assert (A : 0 < PI / 6 < PI / 2) by (pose proof PI_RGT_0; lra). destruct corner_far as (K1 & K2 & K3). destruct (block_effelsberg_spec (PI / 6) corner_C corner_D (4 * 3) (4 * 3) A K1 K2 K3) as [_ W].
  assert (H : block_effelsberg (PI / 6) (4 * 3) (4 * 3) = 1); [|lra]. apply W. pose proof corner_C_range. unfold annulus, legs, shades, shade. rewrite !(Rabs_pos_eq (4 * 3)) by lra. split; [lra|]. split; lra.
Qed.
Definition rounded_csc2 (a : R) : R := fl (/ sin a ^ 2).
Definition rounded_tan (a : R) : R := fl (tan a).
Lemma rounded_slopes : accurate_slopes (/ 2 ^ 52) rounded_csc2 rounded_tan (PI / 6).
Proof.
  assert (Q : forall x, / 2 <= x -> Rabs (fl x - x) <= 2 * / 2 ^ 52 * x). { intros x Hx. eapply Rle_trans; [apply (fl_err (/ 2 ^ 52) x u_52)|]. rewrite Rabs_pos_eq by lra. assert (0 < / 2 ^ 52) by (apply Rinv_0_lt_compat, pow_lt; lra). pose proof tiny_1. replace (2 * / 2 ^ 52 * x) with (/ 2 ^ 52 * (2 * x)) by ring. apply Rmult_le_compat_l; lra. }
  split; unfold rounded_csc2, rounded_tan.
  - assert (C4 : / sin (PI / 6) ^ 2 = 4) by (rewrite sin_PI6; field). rewrite C4. eapply Rle_trans; [apply Q; lra|]. assert (0 < / 2 ^ 52) by (apply Rinv_0_lt_compat, pow_lt; lra). lra.
  - apply Q. rewrite tan_PI6. pose proof sqrt3_range. unfold Rdiv. rewrite Rmult_1_l. apply Rinv_le_contravar; lra.
Qed.
Lemma eff_reach : reach_effelsberg (/ 2 ^ 52) (PI / 6) corner_C corner_D 2 dish_K (6 / 5) (9 / 1000) (22 / 1000) 2 (-12) 2 0 0 16.
Proof.
  assert (P : 0 < / 2 ^ 52) by (apply Rinv_0_lt_compat, pow_lt; lra). assert (P100 : / 2 ^ 100 <= / 1000). { apply Rinv_le_contravar; [lra|]. apply Rle_trans with (2 ^ 10); [lra|apply Rle_pow; [lra|lia]]. } assert (Q100 : 1000 <= 2 ^ 100) by (apply Rle_trans with (2 ^ 10); [lra|apply Rle_pow; [lra|lia]]).
  destruct dish_reach as (H1 & H2 & _ & _ & H5 & H6 & H7 & H8).
  split; [exact H1|]. split; [exact H2|]. split. { rewrite (Rabs_pos_eq (22 / 1000)) by lra. assert (INR 16 = 16) as -> by (rewrite INR_IZR_INZ; reflexivity). repeat match goal with |- _ /\ _ => split end; try lra; try lia. }
  split; [pose proof PI_RGT_0; rewrite sin_PI6; split; [lra|]; split; [lra|exact corner_far]|].
  split. { intros i j _ _. cbv zeta. pose proof (grid_clear i j) as G. cbv zeta in G. split; [exact G|]. intros Ho. apply grid_open in Ho. destruct G as [[G _] _]. rewrite Rabs_left in G by lra. rewrite !Rminus_0_r. lra. }
  split; [exact H5|]. split; [exact H6|]. split; [exact H7|]. eapply Rle_trans; [|exact H8]. apply Rmult_le_compat_r; [lra|]. unfold field_loss. apply Rmult_le_compat_r; [|lra].
  pose proof PI_RGT_0. pose proof (loss_12 2). assert (0 <= turns dish_K (22 / 1000) (9 / 1000)). { unfold turns. pose proof tiny_pos. replace (total_abs dish_K) with (5 / 10). 2:{ cbn [total_abs dish_K fold_right]. rewrite Rabs_R0, (Rabs_pos_eq (1 / 10)), (Rabs_pos_eq (2 / 10)), (Rabs_left (-1 / 10)) by lra. lra. } rewrite (Rabs_pos_eq (22 / 1000)) by lra. replace (INR (length dish_K)) with 6 by (rewrite INR_IZR_INZ; reflexivity). lra. }
  assert (0 <= 2 * PI * turns dish_K (22 / 1000) (9 / 1000)) by (apply Rmult_le_pos; lra). assert (0 <= 20 * loss 2 * (1 + 2 * PI * turns dish_K (22 / 1000) (9 / 1000))) by (apply Rmult_le_pos; lra). lra.
Qed.
Lemma shade_closed : block_effelsberg (PI / 6) (sample (50 * (6 / 5)) 16 12) (sample (50 * (6 / 5)) 16 9) = 0 /\ block_manual 50 (13 / 4) 1 20 (sample (50 * (6 / 5)) 16 12) (sample (50 * (6 / 5)) 16 9) = 1.
Proof.
  rewrite !sample_16. replace (2 * Z.of_nat 9 - 15)%Z with 3%Z by reflexivity. replace (2 * Z.of_nat 12 - 15)%Z with 9%Z by reflexivity. assert (A : 0 < PI / 6 < PI / 2) by (pose proof PI_RGT_0; lra). destruct corner_far as (K1 & K2 & K3). split.
  - destruct (block_effelsberg_spec (PI / 6) corner_C corner_D (4 * 9) (4 * 3) A K1 K2 K3) as [[V|V] W]; [exact V|]. apply (proj1 W) in V as (_ & _ & V). exfalso. apply V. left. left. pose proof corner_C_range. pose proof corner_slope. rewrite Rabs_pos_eq by lra. lra.
  - apply block_manual_iff. unfold annulus, legs. rewrite !Rabs_pos_eq by lra. split; lra.
Qed.
