(** Rounding errors of the radiation pattern with a gaussian taper, and a concrete telescope. *)
From Coq Require Import Reals List Lra Lia ZArith.
From Verif Require Import PyBase PyLib Sums Num MMath MAperture MTel MRad SRad SGain SFloat MFloat MFloat2 MFloat3 MFloat4 MFloat7 SRound SRound2 SRound3 SRound6 PPolar PRound PRound2 PRound4 PRound5 PRound6 PRound9 PRound10 PRound11 PRound12 PRound13 PRound14 PRound22 PRound23 PSim PFft PRad PGain.
From Coquelicot Require Import Complex.
Import ListNotations.
Open Scope R_scope.

Lemma apart_2r x y x0 y0 r : 0 <= r -> x ^ 2 + y ^ 2 <= r ^ 2 -> x0 ^ 2 + y0 ^ 2 <= r ^ 2 -> Rabs (x - x0) <= 2 * r /\ Rabs (y - y0) <= 2 * r.
Proof.
  intros R0 H H0. assert (A : forall a b, a ^ 2 + b ^ 2 <= r ^ 2 -> Rabs a <= r) by (intros a b Q; apply (sq_le a b r R0 Q)).
  pose proof (A x y H). pose proof (A y x ltac:(lra)). pose proof (A x0 y0 H0). pose proof (A y0 x0 ltac:(lra)). split; (eapply Rle_trans; [apply Rabs_triang|]; rewrite Rabs_Ropp; lra).
Qed.
Lemma gauss_any (m : maths) (mexp msq : R -> R) (l : list R) i_amp c_dB x0 y0 r : unpack2 (firstn 2 l) = Ok (i_amp, c_dB) -> unpack2 (last2 l) = Ok (x0, y0) -> exists Ea Ea64, illum_gauss l r = Ok Ea /\ illum_gauss64 m mexp msq l r = Ok Ea64.
Proof. intros I1 I2. unfold illum_gauss, illum_gauss64. rewrite I1, I2. cbn [bind]. eexists. eexists. split; reflexivity. Qed.
Lemma illum_api e m mexp msq (l : list R) i_amp c_dB x0 y0 pr x y : u <= e -> accurate_maths e m -> accurate_gauss e mexp msq -> unpack2 (firstn 2 l) = Ok (i_amp, c_dB) -> unpack2 (last2 l) = Ok (x0, y0) ->
  / 2 ^ 100 <= pr -> -100 <= c_dB <= 0 -> / 2 ^ 100 <= gauss_peak i_amp c_dB -> e <= taper c_dB ^ 2 / 20000 -> Rabs (x - x0) <= 2 * pr -> Rabs (y - y0) <= 2 * pr ->
  exists Ea Ea64, illum_gauss l pr = Ok Ea /\ illum_gauss64 m mexp msq l pr = Ok Ea64 /\ Rabs (Ea64 x y - Ea x y) <= 320 / taper c_dB ^ 2 * e * gauss_peak i_amp c_dB /\ Rabs (Ea x y) <= gauss_peak i_amp c_dB.
Proof.
  intros Ue Hm Hg I1 I2 Hr Hc Hp He Lx Ly. pose proof (e_pos e Ue) as P. pose proof (taper_range c_dB Hc) as S. pose proof (r_pos pr Hr) as R0. set (s := taper c_dB) in *. assert (S2 : 0 < s ^ 2) by nra.
  assert (S1 : s ^ 2 <= 1) by nra. assert (E1 : e <= / 20000) by lra. assert (Hh : / s ^ 2 * 2 * e <= / 10000). { apply Rmult_le_reg_l with (s ^ 2); [exact S2|]. replace (s ^ 2 * (/ s ^ 2 * 2 * e)) with (2 * e) by (field; lra). lra. }
  assert (D : forall z, Rabs (z - z) <= 2 * e * pr). { intros z. rewrite Rminus_diag_eq, Rabs_R0 by reflexivity. apply Rmult_le_pos; lra. }
  destruct (gauss_near e Ue ltac:(lra) m mexp msq Hm Hg pr 2 x y x y Hr ltac:(lra) ltac:(lra) (D x) (D y) l i_amp c_dB x0 y0 I1 I2 Hp Hc Hh Lx Ly) as (Ea & Ea64 & E0 & E64 & [N1 N2]). exists Ea, Ea64. split; [exact E0|]. split; [exact E64|]. split; [|exact N2].
  eapply Rle_trans; [exact N1|]. fold s. assert (P0 : 0 < / 2 ^ 100) by (apply Rinv_0_lt_compat, pow_lt; lra). apply Rmult_le_compat_r; [lra|]. apply Rmult_le_compat_r; [lra|]. replace (/ s * / s) with (/ s ^ 2) by (field; nra). unfold Rdiv. pose proof (Rinv_0_lt_compat _ S2). lra.
Qed.

Section Api.
Variables (e ef : R) (m : maths) (mexp msq : R -> R) (n : nat) (K : list R) (pr sr a L Fp F bf wavel d_z i_amp c_dB x0 y0 : R) (N : nat) (l : list R).
Hypothesis Ue : u <= e.
Hypothesis Hm : accurate_maths e m.
Hypothesis Hg : accurate_gauss e mexp msq.
Hypothesis I1 : unpack2 (firstn 2 l) = Ok (i_amp, c_dB).
Hypothesis I2 : unpack2 (last2 l) = Ok (x0, y0).
Hypothesis Hw : gauss_reach e n K pr sr a L Fp F bf wavel d_z i_amp c_dB x0 y0 N.
Let fe := gauss_loss n bf c_dB (turns K d_z wavel) * e.
Let B := pr * bf.
Let x64 (i : nat) := linspace64 (- fl B) (fl B) N i.
Let A0 := gauss_peak i_amp c_dB.
Let s := taper c_dB.
Let q := 3 / s ^ 2.

Lemma q_facts : 0 < s <= 1 /\ 1 <= q /\ q * s ^ 2 = 3.
Proof.
  destruct Hw as (_ & _ & _ & _ & _ & Hc & _). pose proof (taper_range c_dB Hc) as S. fold s in S. assert (S2 : 0 < s ^ 2 <= 1) by nra. assert (Q : q * s ^ 2 = 3) by (unfold q; field; lra). split; [lra|]. split; [nra|exact Q].
Qed.
Lemma near_open Ea Ea64 : illum_gauss l pr = Ok Ea -> illum_gauss64 m mexp msq l pr = Ok Ea64 -> forall i j, (i < N)%nat -> (j < N)%nat -> block_manual pr sr a L (sample B N i) (sample B N j) <> 0 -> near e (122 * q * bf) A0 (Ea64 (x64 i) (x64 j)) (Ea (sample B N i) (sample B N j)).
Proof.
  intros H0 H64 i j Hi Hj Ho. destruct q_facts as (S & Q & QS). destruct Hw as (HK & _ & (Hpr & Hbf & Hmax & HN & N2 & Hsr & HL & H_a & HFp & HF & Hz & Hwl) & Hcl & Hp & Hc & Hin & Hsm). pose proof (e_pos e Ue) as P. assert (S2 : 0 < s ^ 2) by nra.
  assert (W0 : 0 < wavel) by (assert (0 < / 2 ^ 100) by (apply Rinv_0_lt_compat, pow_lt; lra); lra). assert (De : 0 <= 2 * Rabs d_z / wavel). { apply Rmult_le_pos; [pose proof (Rabs_pos d_z); lra|left; apply Rinv_0_lt_compat, W0]. }
  assert (L1 : (1 <= length K)%nat) by nia. destruct (size_tiny K L1) as [S1 _]. pose proof tiny_pos. assert (Ht : 0 <= turns K d_z wavel) by (unfold turns; fold (size K); lra).
  destruct (field_loss_le n bf q (turns K d_z wavel) Hbf Q Ht) as (F1 & _ & F3 & _). unfold gauss_loss in Hsm. fold s q in Hsm. assert (G1 : 130 * q * bf * e <= / 1000) by (eapply Rle_trans; [apply Rmult_le_compat_r; [lra|exact F1]|exact Hsm]). assert (G3 : 370 * bf * e <= / 1000) by (eapply Rle_trans; [apply Rmult_le_compat_r; [lra|exact F3]|exact Hsm]).
  assert (bfe : e <= bf * e) by nra.
  pose proof (box_grid e pr bf N Ue Hpr Hbf Hmax HN N2 i Hi) as [Gx _]. pose proof (box_grid e pr bf N Ue Hpr Hbf Hmax HN N2 j Hj) as [Gy _]. fold B in Gx, Gy. rewrite node_sample in Gx, Gy by exact N2. fold (x64 i) in Gx. fold (x64 j) in Gy.
  destruct (block_01 pr sr a L (sample B N i) (sample B N j)) as [Z|[_ Ins]]; [contradiction|]. pose proof (r_pos pr Hpr) as R0. destruct (apart_2r _ _ x0 y0 pr ltac:(lra) (Rlt_le _ _ Ins) Hin) as [Lx Ly].
  assert (Qi : / s ^ 2 = q / 3) by (unfold q; field; lra).
  assert (D1 : Rabs (x64 i - sample B N i) <= 10 * bf * e * pr) by (eapply Rle_trans; [exact Gx|]; unfold B; right; ring). assert (D2 : Rabs (x64 j - sample B N j) <= 10 * bf * e * pr) by (eapply Rle_trans; [exact Gy|]; unfold B; right; ring).
  assert (Hh : / s ^ 2 * (10 * bf) * e <= / 10000) by (rewrite Qi; replace (q / 3 * (10 * bf) * e) with (10 / 3 * (q * bf * e)) by field; lra).
  destruct (gauss_near e Ue ltac:(lra) m mexp msq Hm Hg pr (10 * bf) _ _ _ _ Hpr ltac:(lra) ltac:(lra) D1 D2 l i_amp c_dB x0 y0 I1 I2 Hp Hc Hh Lx Ly) as (Ea' & Ea64' & E0 & E64 & Nr).
  assert (Ea' = Ea) by congruence. assert (Ea64' = Ea64) by congruence. subst Ea' Ea64'. eapply near_le; [exact Ue| |exact Nr]. fold s. replace (/ s * / s) with (/ s ^ 2) by (field; lra). rewrite Qi. assert (q <= q * bf) by nra. lra.
Qed.
Lemma gauss_field_api : exists E E64, aperture illum_gauss (manual pr sr a L Fp F) l K d_z wavel = Ok E /\ aperture64 m (illum_gauss64 m mexp msq) (manual64 pr sr a L Fp F) l K d_z wavel = Ok E64 /\
  forall i j, (i < N)%nat -> (j < N)%nat -> Cmod (Cminus (E64 (x64 i) (x64 j)) (E (sample B N i) (sample B N j))) <= 2 * fe * A0 * block_manual pr sr a L (sample B N i) (sample B N j).
Proof.
  destruct q_facts as (_ & Q & _). destruct (gauss_any m mexp msq l i_amp c_dB x0 y0 pr I1 I2) as (Ea & Ea64 & E0 & E64). pose proof (near_open Ea Ea64 E0 E64) as Nr. destruct Hw as (HK & H53 & Hd & Hcl & Hp & Hc & Hin & Hsm).
  destruct (pixel_any e m n K pr sr a L Fp F bf wavel d_z q N illum_gauss (illum_gauss64 m mexp msq) l Ea Ea64 A0 Ue Hm HK H53 Hd Hcl E0 E64 Hp Nr Q Hsm) as (E & E' & X1 & X2 & X). exists E, E'. split; [exact X1|]. split; [exact X2|]. intros i j Hi Hj. exact (proj1 (X i j Hi Hj)).
Qed.
Hypothesis Hfft : accurate_fft ef (m_fft m).
Hypothesis Hef : 0 <= ef <= / 1000.
Lemma gauss_pattern_api : exists ua va F0 ua64 va64 F64, radiation_pattern illum_gauss (manual pr sr a L Fp F) l K d_z wavel N bf = Ok (ua, va, F0) /\ radiation_pattern64 m (illum_gauss64 m mexp msq) (manual64 pr sr a L Fp F) l K d_z wavel N bf = Ok (ua64, va64, F64) /\
  length ua64 = N /\ va64 = ua64 /\ length F64 = N /\ (forall i, (i < N)%nat -> Rabs (nth i ua64 0 - nth i ua 0) <= INR N * / 2 ^ 49 * Rabs (nth i ua 0)) /\
  forall j i, (j < N)%nat -> (i < N)%nat -> length (nth j F64 []) = N /\ Cmod (Cminus (at2 F64 j i) (at2 F0 j i)) <= 2 * (fe + ef) * (A0 * over_samples B N (block_manual pr sr a L)).
Proof.
  destruct q_facts as (_ & Q & _). destruct (gauss_any m mexp msq l i_amp c_dB x0 y0 pr I1 I2) as (Ea & Ea64 & E0 & E64). pose proof (near_open Ea Ea64 E0 E64) as Nr. destruct Hw as (HK & H53 & Hd & Hcl & Hp & Hc & Hin & Hsm).
  destruct (pattern_any e ef m n K pr sr a L Fp F bf wavel d_z q N illum_gauss (illum_gauss64 m mexp msq) l Ea Ea64 A0 Ue Hm HK H53 Hd Hcl E0 E64 Hp Nr Q Hsm Hfft Hef) as (ua & va & F0 & ua64 & va64 & F64 & X1 & X2 & Hu & Hv & R0 & R64 & H).
  exists ua, va, F0, ua64, va64, F64. split; [exact X1|]. split; [exact X2|]. split; [rewrite Hu, map_length, seq_length; reflexivity|]. split; [exact Hv|]. split; [apply R64|]. split.
  - intros i Hi. rewrite Hu. rewrite nth_indep with (d' := u_axis64 pr bf wavel N O) by (rewrite map_length, seq_length; exact Hi). rewrite map_nth, seq_nth by exact Hi. cbn [Nat.add]. destruct Hd as (D1 & D2 & D3 & D4 & _ & _ & _ & _ & _ & _ & _ & D5).
    apply (u_axis_err illum_gauss (manual pr sr a L Fp F) l K d_z wavel N bf ua va F0); [cbn [manual tel_pr]; split; [assert (0 < / 2 ^ 100) by (apply Rinv_0_lt_compat, pow_lt; lra); nra|exact D3]|exact D5|exact D4|exact X1|exact Hi].
  - intros j i Hj Hi. split; [destruct R64 as [RL RR]; apply RR, nth_In; rewrite RL; exact Hj|]. exact (proj1 (H j i Hj Hi)).
Qed.
Lemma gauss_power_api : (exists i j, (i < N)%nat /\ (j < N)%nat /\ block_manual pr sr a L (sample B N i) (sample B N j) <> 0) ->
  exists ua va F0 ua64 va64 F64, radiation_pattern illum_gauss (manual pr sr a L Fp F) l K d_z wavel N bf = Ok (ua, va, F0) /\ radiation_pattern64 m (illum_gauss64 m mexp msq) (manual64 pr sr a L Fp F) l K d_z wavel N bf = Ok (ua64, va64, F64) /\
  let top := (A0 * over_samples B N (block_manual pr sr a L)) ^ 2 in
  forall j i, (j < N)%nat -> (i < N)%nat -> Rabs (nth i (nth j (power_pattern64 m F64) []) 0 - nth i (nth j (power_pattern F0) []) 0) <= 5 * (fe + ef) * top /\ 0 <= nth i (nth j (power_pattern F0) []) 0 <= top.
Proof.
  intros (i0 & j0 & Hi0 & Hj0 & Ho). destruct q_facts as (_ & Q & _). destruct (gauss_any m mexp msq l i_amp c_dB x0 y0 pr I1 I2) as (Ea & Ea64 & E0 & E64). pose proof (near_open Ea Ea64 E0 E64) as Nr. destruct Hw as (HK & H53 & Hd & Hcl & Hp & Hc & Hin & Hsm).
  exact (power_any e ef m n K pr sr a L Fp F bf wavel d_z q N illum_gauss (illum_gauss64 m mexp msq) l Ea Ea64 A0 Ue Hm HK H53 Hd Hcl E0 E64 Hp Nr Q Hsm Hfft Hef (open_sum pr sr a L B N i0 j0 Hi0 Hj0 Ho)).
Qed.
End Api.

(** ** Exceptions *)
Lemma gauss_alike m mexp msq pr sr a L Fp F l K d_z wavel N bf er : (8 * Z.of_nat (length K) + 1 < 2 ^ 53)%Z ->
  (radiation_pattern illum_gauss (manual pr sr a L Fp F) l K d_z wavel N bf = Err er <-> radiation_pattern64 m (illum_gauss64 m mexp msq) (manual64 pr sr a L Fp F) l K d_z wavel N bf = Err er).
Proof.
  intros H53. destruct (le_lt_dec 2 N) as [N2|N2].
  - rewrite rad_unfold, rad64_unfold by exact N2. cbv zeta. unfold aperture, aperture64. pose proof (alike_W (m_lm m) K H53) as A.
    destruct (wavefront K) as [W|ee] eqn:EW; destruct (wavefront64 (m_lm m) K) as [W64|ee'] eqn:EW64; cbn [bind].
    + assert (X : (exists v, illum_gauss l pr = Ok v) /\ (exists v, illum_gauss64 m mexp msq l pr = Ok v) \/ exists x, illum_gauss l pr = Err x /\ illum_gauss64 m mexp msq l pr = Err x).
      { unfold illum_gauss, illum_gauss64. destruct (unpack2 (firstn 2 l)) as [[i_amp c_dB]|x]; cbn [bind]; [|right; exists x; split; reflexivity]. destruct (unpack2 (last2 l)) as [[x0 y0]|x]; cbn [bind]; [|right; exists x; split; reflexivity]. left. split; eexists; reflexivity. }
      cbn [manual manual64 tel_pr]. destruct X as [[[v ->] [v' ->]]|(x & -> & ->)]; cbn [bind]; split; intros X; congruence.
    + exfalso. destruct (A ee') as [_ A2]. specialize (A2 eq_refl). discriminate.
    + exfalso. destruct (A ee) as [A1 _]. specialize (A1 eq_refl). discriminate.
    + destruct (A ee) as [A1 _]. specialize (A1 eq_refl). split; intros X; congruence.
  - rewrite rad_small by exact N2. unfold radiation_pattern64. cbv zeta. unfold py_get. destruct N as [|[|N']]; [| |lia]; cbn [seq map nth_error bind]; reflexivity.
Qed.

(** ** The dish of PRound14 with a gaussian taper of -20 dB, centred 3 m off *)
Lemma rounded_gauss : accurate_gauss (/ 2 ^ 52) (fun x => fl (exp x)) (fun x => fl (x ^ 2)).
Proof.
  pose proof tiny_pos as Tp. pose proof tiny_1 as Tl. pose proof u_52 as U. assert (P : 0 < / 2 ^ 53) by (apply Rinv_0_lt_compat, pow_lt; lra). assert (H53 : / 2 ^ 52 = 2 * / 2 ^ 53) by (replace (2 ^ 53) with (2 ^ 52 * 2) by ring; rewrite Rinv_mult; field; apply pow_nonzero; lra).
  assert (Fe : forall x, Rabs (fl x - x) <= / 2 ^ 53 * (Rabs x + tiny / 100)) by (intros x; exact (fl_err (/ 2 ^ 53) x (Rle_refl _))). split.
  - intros x Hx. eapply Rle_trans; [apply Fe|]. pose proof (exp_le1 x Hx). rewrite Rabs_pos_eq by (left; apply exp_pos). rewrite H53. assert (/ 2 ^ 53 * (exp x + tiny / 100) <= / 2 ^ 53 * 2) by (apply Rmult_le_compat_l; lra). lra.
  - intros x Hx. eapply Rle_trans; [apply Fe|]. rewrite Rabs_pos_eq by apply pow2_ge_0. rewrite H53. assert (Q : tiny <= x ^ 2). { destruct small_300 as [T3 _]. assert (P0 : 0 < / 2 ^ 100) by (apply Rinv_0_lt_compat, pow_lt; lra). apply Rle_trans with (/ 2 ^ 100 * / 2 ^ 100); [|replace (x ^ 2) with (x * x) by ring; apply Rmult_le_compat; lra]. eapply Rle_trans; [exact T3|]. rewrite <- Rinv_mult, <- pow_add. apply Rinv_le_contravar; [apply pow_lt; lra|apply Rle_pow; [lra|lia]]. }
    replace (2 * / 2 ^ 53 * x ^ 2) with (/ 2 ^ 53 * (2 * x ^ 2)) by ring. apply Rmult_le_compat_l; lra.
Qed.
Lemma taper_20 : taper (-20) = / 10.
Proof. unfold taper. replace (-20 / 20) with (- (1)) by lra. rewrite Rpower_Ropp, Rpower_1 by lra. reflexivity. Qed.
Lemma gauss_dish : gauss_reach (/ 2 ^ 52) 2 dish_K 50 3 1 20 30 300 5 (9 / 1000) (22 / 1000) 2 (-20) 3 0 256.
Proof.
  destruct dish_reach as (A1 & A2 & A3 & A4 & _ & _ & _ & A8). split; [exact A1|]. split; [exact A2|]. split; [exact A3|]. split; [intros i j Hi Hj; exact (proj1 (A4 i j Hi Hj))|].
  split.
  { unfold gauss_peak. rewrite taper_20, (Rabs_pos_eq 2) by lra. pose proof PI2_1. assert (Q : / 10 <= sqrt (2 * PI * (/ 10) ^ 2)). { rewrite <- (sqrt_pow2 (/ 10)) at 1 by lra. apply sqrt_le_1_alt. lra. } assert (/ 2 ^ 100 <= / 1000). { apply Rinv_le_contravar; [lra|]. apply Rle_trans with (2 ^ 10); [lra|apply Rle_pow; [lra|lia]]. } lra. }
  split; [lra|]. split; [lra|]. unfold gauss_loss. rewrite taper_20. replace (3 / (/ 10) ^ 2) with 300 by field.
  assert (T : turns dish_K (22 / 1000) (9 / 1000) <= 12).
  { unfold turns. replace (total_abs dish_K) with (5 / 10). 2:{ cbn [total_abs dish_K fold_right]. rewrite Rabs_R0, (Rabs_pos_eq (1 / 10)), (Rabs_pos_eq (2 / 10)), (Rabs_left (-1 / 10)) by lra. lra. } rewrite (Rabs_pos_eq (22 / 1000)) by lra. replace (INR (length dish_K)) with 6 by (rewrite INR_IZR_INZ; reflexivity). pose proof tiny_1. lra. }
  pose proof PI_4. pose proof PI_RGT_0. set (t := turns dish_K (22 / 1000) (9 / 1000)) in *. unfold field_loss, loss. replace (INR 2) with 2 by (rewrite INR_IZR_INZ; reflexivity). assert (PI * t <= PI * 12) by (apply Rmult_le_compat_l; lra).
  assert (I52 : 0 < / 2 ^ 52 <= / 1000000000000). { split; [apply Rinv_0_lt_compat, pow_lt; lra|]. apply Rinv_le_contravar; lra. }
  assert (5 * (130 * 300 + 20 * (2 * (2 + 6) * (5 / 2) ^ 2) * (1 + 2 * PI * t)) <= 10000000) by lra. apply Rle_trans with (10000000 * / 2 ^ 52); [apply Rmult_le_compat_r; lra|lra].
Qed.
