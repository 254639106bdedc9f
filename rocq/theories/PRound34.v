(** Rounding errors of the Effelsberg telescope with a gaussian illumination. *)
From Coq Require Import Reals List Lra Lia ZArith Bool.
From Verif Require Import PyBase PyLib Sums Num MMath MAperture MTel STel MRad SRad SGain SFloat MFloat MFloat2 MFloat3 MFloat4 MFloat7 MFloat8 SRound SRound2 SRound3 SRound6 SRound7 SRound10 PPolar PTel POrder64 PRound PRound2 PRound4 PRound5 PRound6 PRound9 PRound10 PRound11 PRound12 PRound13 PRound14 PRound22 PRound23 PRound24 PRound25 PRound26 PRound27 PSim PFft PRad PGain.
From Coquelicot Require Import Complex.
Import ListNotations.
Open Scope R_scope.

Section Api.
Variables (e ef alpha C D : R) (m : maths) (mcsc2 mtan mexp msq : R -> R) (n : nat) (K : list R) (bf wavel d_z i_amp c_dB x0 y0 : R) (N : nat) (l : list R).
Hypothesis Ue : u <= e.
Hypothesis Hm : accurate_maths e m.
Hypothesis Hl : accurate_slopes e mcsc2 mtan alpha.
Hypothesis Hg : accurate_gauss e mexp msq.
Hypothesis I1 : unpack2 (firstn 2 l) = Ok (i_amp, c_dB).
Hypothesis I2 : unpack2 (last2 l) = Ok (x0, y0).
Hypothesis Hw : reach_eff_gauss e alpha C D n K bf wavel d_z i_amp c_dB x0 y0 N.
Let fe := gauss_loss n bf c_dB (turns K d_z wavel) * e.
Let B := 50 * bf.
Let x64 (i : nat) := linspace64 (- fl B) (fl B) N i.
Let Bl := block_effelsberg alpha.
Let A0 := gauss_peak i_amp c_dB.
Let s := taper c_dB.
Let q := 3 / s ^ 2.

Lemma effg_q : 0 < s <= 1 /\ 1 <= q /\ q * s ^ 2 = 3.
Proof.
  destruct Hw as (_ & _ & _ & _ & _ & _ & Hc & _). pose proof (taper_range c_dB Hc) as S. fold s in S. assert (S2 : 0 < s ^ 2 <= 1) by nra. assert (Q : q * s ^ 2 = 3) by (unfold q; field; lra). split; [lra|]. split; [nra|exact Q].
Qed.
(** The geometry is that of C120. *)
Lemma effg_reach : reach_effelsberg e alpha C D n K bf wavel d_z 1 0 q 0 0 N.
Proof.
  destruct effg_q as (_ & Q & _). destruct Hw as (A1 & A2 & A3 & (G1 & G2 & G3) & Hs & Hp & Hc & Hin & Hsm). pose proof (e_pos e Ue) as P. pose proof (pow2_ge_0 B) as PB.
  split; [exact A1|]. split; [exact A2|]. split; [exact A3|]. split; [split; [exact G1|split; assumption]|]. split; [|split; [rewrite Rabs_R1, <- Rinv_1; apply Rinv_le_contravar; [lra|apply pow_R1_Rle; lra]|]; split; [lra|]; split; [exact Q|exact Hsm]].
  intros i j Hi Hj x y. split; [apply Hs; assumption|]. intros Ho. rewrite !Rminus_0_r. fold B. subst x y. fold B in Ho. fold B. destruct (Hs i j Hi Hj) as [(C1 & _) _]. fold B in C1.
  assert (In : sample B N i ^ 2 + sample B N j ^ 2 < 50 ^ 2). { assert (Hsin : sin alpha <> 0) by lra. destruct (block_effelsberg_iff alpha (sample B N i) (sample B N j) Hsin) as [[V|V] W]; [contradiction|]. apply (proj1 W) in V as (V & _). apply V. }
  rewrite Rabs_left in C1 by lra. assert (0 <= e * B ^ 2) by (apply Rmult_le_pos; lra). lra.
Qed.
Lemma effg_near Ea Ea64 : illum_gauss l 50 = Ok Ea -> illum_gauss64 m mexp msq l 50 = Ok Ea64 -> forall i j, (i < N)%nat -> (j < N)%nat -> block_dist (eff alpha) (sample B N i) (sample B N j) <> 0 -> near e (122 * q * bf) A0 (Ea64 (x64 i) (x64 j)) (Ea (sample B N i) (sample B N j)).
Proof.
  intros H0 H64 i j Hi Hj Ho. destruct effg_q as (S & Q & QS). pose proof effg_reach as R. destruct (eff_small e alpha C D n K bf wavel d_z 1 0 q 0 0 N Ue R) as (G3 & G1 & G0 & Hbf & _).
  destruct (eff_steps e alpha C D n K bf wavel d_z 1 0 q 0 0 N Ue R i j Hi Hj) as [D1 D2]. fold B in D1, D2. fold (x64 i) in D1. fold (x64 j) in D2. pose proof (eff_in e alpha C D n K bf wavel d_z 1 0 q 0 0 N Ue R i j Hi Hj Ho) as In. fold B in In.
  destruct Hw as (_ & _ & _ & _ & _ & Hp & Hc & Hin & Hsm). pose proof (e_pos e Ue) as P. assert (S2 : 0 < s ^ 2) by nra. assert (bfe : e <= bf * e) by nra. pose proof (pow2_ge_0 B) as PB. assert (0 <= e * B ^ 2) by (apply Rmult_le_pos; lra).
  assert (P100 : / 2 ^ 100 <= 50). { apply Rle_trans with (/ 1); [|lra]. apply Rinv_le_contravar; [lra|]. apply Rle_trans with (2 ^ 10); [lra|apply Rle_pow; [lra|lia]]. }
  assert (In' : sample B N i ^ 2 + sample B N j ^ 2 <= 50 ^ 2) by lra. destruct (apart_2r _ _ x0 y0 50 ltac:(lra) In' Hin) as [Lx Ly]. assert (Qi : / s ^ 2 = q / 3) by (unfold q; field; lra).
  assert (Hh : / s ^ 2 * (10 * bf) * e <= / 10000) by (rewrite Qi; replace (q / 3 * (10 * bf) * e) with (10 / 3 * (q * bf * e)) by field; lra).
  destruct (gauss_near e Ue ltac:(lra) m mexp msq Hm Hg 50 (10 * bf) _ _ _ _ P100 ltac:(lra) ltac:(lra) D1 D2 l i_amp c_dB x0 y0 I1 I2 Hp Hc Hh Lx Ly) as (Ea' & Ea64' & E0 & E64 & Nr).
  assert (Ea' = Ea) by congruence. assert (Ea64' = Ea64) by congruence. subst Ea' Ea64'. eapply near_le; [exact Ue| |exact Nr]. fold s. replace (/ s * / s) with (/ s ^ 2) by (field; lra). rewrite Qi. assert (q <= q * bf) by nra. lra.
Qed.
Lemma effg_field : exists E E64, aperture illum_gauss (eff alpha) l K d_z wavel = Ok E /\ aperture64 m (illum_gauss64 m mexp msq) (eff64 mcsc2 mtan alpha) l K d_z wavel = Ok E64 /\
  forall i j, (i < N)%nat -> (j < N)%nat -> Cmod (Cminus (E64 (x64 i) (x64 j)) (E (sample B N i) (sample B N j))) <= 2 * fe * A0 * Bl (sample B N i) (sample B N j).
Proof.
  pose proof effg_reach as R. destruct effg_q as (_ & Hq & _). destruct (gauss_any m mexp msq l i_amp c_dB x0 y0 50 I1 I2) as (Ea & Ea64 & O1 & O2). pose proof (eff_mask e alpha C D mcsc2 mtan n K bf wavel d_z 1 0 q 0 0 N Ue Hl R) as X1. pose proof (eff_in e alpha C D n K bf wavel d_z 1 0 q 0 0 N Ue R) as X2. pose proof (eff_opd e alpha C D mcsc2 mtan n K bf wavel d_z 1 0 q 0 0 N Ue R) as X3. pose proof (effg_near Ea Ea64 O1 O2) as X4. destruct Hw as (A1 & A2 & (B1 & B2 & B3 & B4 & B5 & B6) & (G1 & G2 & G3) & Hs & Hamp & Hc & Hin & Hsm).
  assert (P100 : / 2 ^ 100 <= 50). { apply Rle_trans with (/ 1); [|lra]. apply Rinv_le_contravar; [lra|]. apply Rle_trans with (2 ^ 10); [lra|apply Rle_pow; [lra|lia]]. }
  destruct (pixel_tel e m n K (eff alpha) (eff64 mcsc2 mtan alpha) 50 bf wavel d_z q N illum_gauss (illum_gauss64 m mexp msq) l Ea Ea64 (A0) Ue Hm A1 A2 eq_refl eq_refl (conj P100 (conj B1 (conj B2 (conj B3 (conj B4 B6))))) X1 (fun x y => block_effelsberg_01 alpha x y) X2 X3 O1 O2 Hamp X4 Hq Hsm) as (E & E64 & R1 & R2 & HE).
  exists E, E64. split; [exact R1|]. split; [exact R2|]. intros i j Hi Hj. exact (proj1 (HE i j Hi Hj)).
Qed.
Hypothesis Hfft : accurate_fft ef (m_fft m).
Hypothesis Hef : 0 <= ef <= / 1000.
Lemma effg_pattern : exists ua va F0 ua64 va64 F64, radiation_pattern illum_gauss (eff alpha) l K d_z wavel N bf = Ok (ua, va, F0) /\ radiation_pattern64 m (illum_gauss64 m mexp msq) (eff64 mcsc2 mtan alpha) l K d_z wavel N bf = Ok (ua64, va64, F64) /\
  length ua64 = N /\ va64 = ua64 /\ length F64 = N /\ (forall i, (i < N)%nat -> Rabs (nth i ua64 0 - nth i ua 0) <= INR N * / 2 ^ 49 * Rabs (nth i ua 0)) /\
  forall j i, (j < N)%nat -> (i < N)%nat -> length (nth j F64 []) = N /\ Cmod (Cminus (at2 F64 j i) (at2 F0 j i)) <= 2 * (fe + ef) * (A0 * over_samples B N Bl).
Proof.
  pose proof effg_reach as R. destruct effg_q as (_ & Hq & _). destruct (gauss_any m mexp msq l i_amp c_dB x0 y0 50 I1 I2) as (Ea & Ea64 & O1 & O2). pose proof (eff_mask e alpha C D mcsc2 mtan n K bf wavel d_z 1 0 q 0 0 N Ue Hl R) as X1. pose proof (eff_in e alpha C D n K bf wavel d_z 1 0 q 0 0 N Ue R) as X2. pose proof (eff_opd e alpha C D mcsc2 mtan n K bf wavel d_z 1 0 q 0 0 N Ue R) as X3. pose proof (effg_near Ea Ea64 O1 O2) as X4. destruct Hw as (A1 & A2 & (B1 & B2 & B3 & B4 & B5 & B6) & (G1 & G2 & G3) & Hs & Hamp & Hc & Hin & Hsm).
  assert (P100 : / 2 ^ 100 <= 50). { apply Rle_trans with (/ 1); [|lra]. apply Rinv_le_contravar; [lra|]. apply Rle_trans with (2 ^ 10); [lra|apply Rle_pow; [lra|lia]]. }
  destruct (pattern_tel e ef m n K (eff alpha) (eff64 mcsc2 mtan alpha) 50 bf wavel d_z q N illum_gauss (illum_gauss64 m mexp msq) l Ea Ea64 (A0) Ue Hm A1 A2 eq_refl eq_refl (conj P100 (conj B1 (conj B2 (conj B3 (conj B4 B6))))) X1 (fun x y => block_effelsberg_01 alpha x y) X2 X3 O1 O2 Hamp X4 Hq Hsm Hfft Hef) as (ua & va & F0 & ua64 & va64 & F64 & E1 & E2 & Hu & Hv & R0 & R64 & H).
  exists ua, va, F0, ua64, va64, F64. split; [exact E1|]. split; [exact E2|]. split; [rewrite Hu, map_length, seq_length; reflexivity|]. split; [exact Hv|]. split; [apply R64|]. split.
  - intros i Hi. rewrite Hu. rewrite nth_indep with (d' := u_axis64 50 bf wavel N O) by (rewrite map_length, seq_length; exact Hi). rewrite map_nth, seq_nth by exact Hi. cbn [Nat.add].
    apply (u_axis_err illum_gauss (eff alpha) l K d_z wavel N bf ua va F0); [cbn [eff tel_pr]; split; [lra|exact B2]|exact B6|exact B3|exact E1|exact Hi].
  - intros j i Hj Hi. split; [destruct R64 as [RL RR]; apply RR, nth_In; rewrite RL; exact Hj|]. exact (proj1 (H j i Hj Hi)).
Qed.
Lemma effg_power : (exists i j, (i < N)%nat /\ (j < N)%nat /\ Bl (sample B N i) (sample B N j) <> 0) ->
  exists ua va F0 ua64 va64 F64, radiation_pattern illum_gauss (eff alpha) l K d_z wavel N bf = Ok (ua, va, F0) /\ radiation_pattern64 m (illum_gauss64 m mexp msq) (eff64 mcsc2 mtan alpha) l K d_z wavel N bf = Ok (ua64, va64, F64) /\
  let top := (A0 * over_samples B N Bl) ^ 2 in
  forall j i, (j < N)%nat -> (i < N)%nat -> Rabs (nth i (nth j (power_pattern64 m F64) []) 0 - nth i (nth j (power_pattern F0) []) 0) <= 5 * (fe + ef) * top /\ 0 <= nth i (nth j (power_pattern F0) []) 0 <= top.
Proof.
  intros (i0 & j0 & Hi0 & Hj0 & Ho). pose proof (eff_open alpha bf N i0 j0 Hi0 Hj0 Ho) as HM. pose proof effg_reach as R. destruct effg_q as (_ & Hq & _). destruct (gauss_any m mexp msq l i_amp c_dB x0 y0 50 I1 I2) as (Ea & Ea64 & O1 & O2). pose proof (eff_mask e alpha C D mcsc2 mtan n K bf wavel d_z 1 0 q 0 0 N Ue Hl R) as X1. pose proof (eff_in e alpha C D n K bf wavel d_z 1 0 q 0 0 N Ue R) as X2. pose proof (eff_opd e alpha C D mcsc2 mtan n K bf wavel d_z 1 0 q 0 0 N Ue R) as X3. pose proof (effg_near Ea Ea64 O1 O2) as X4. destruct Hw as (A1 & A2 & (B1 & B2 & B3 & B4 & B5 & B6) & (G1 & G2 & G3) & Hs & Hamp & Hc & Hin & Hsm).
  assert (P100 : / 2 ^ 100 <= 50). { apply Rle_trans with (/ 1); [|lra]. apply Rinv_le_contravar; [lra|]. apply Rle_trans with (2 ^ 10); [lra|apply Rle_pow; [lra|lia]]. }
  exact (power_tel e ef m n K (eff alpha) (eff64 mcsc2 mtan alpha) 50 bf wavel d_z q N illum_gauss (illum_gauss64 m mexp msq) l Ea Ea64 (A0) Ue Hm A1 A2 eq_refl eq_refl (conj P100 (conj B1 (conj B2 (conj B3 (conj B4 B6))))) X1 (fun x y => block_effelsberg_01 alpha x y) X2 X3 O1 O2 Hamp X4 Hq Hsm Hfft Hef HM).
Qed.
End Api.

(** ** Exceptions *)
Lemma effg_alike m mexp msq mcsc2 mtan alpha l K d_z wavel N bf er : (8 * Z.of_nat (length K) + 1 < 2 ^ 53)%Z ->
  (radiation_pattern illum_gauss (eff alpha) l K d_z wavel N bf = Err er <-> radiation_pattern64 m (illum_gauss64 m mexp msq) (eff64 mcsc2 mtan alpha) l K d_z wavel N bf = Err er).
Proof.
  intros H53. destruct (le_lt_dec 2 N) as [N2|N2].
  - rewrite rad_unfold, rad64_unfold by exact N2. cbv zeta. unfold aperture, aperture64. pose proof (alike_W (m_lm m) K H53) as A.
    destruct (wavefront K) as [W|ee] eqn:EW; destruct (wavefront64 (m_lm m) K) as [W64|ee'] eqn:EW64; cbn [bind].
    + assert (X : (exists v, illum_gauss l 50 = Ok v) /\ (exists v, illum_gauss64 m mexp msq l 50 = Ok v) \/ exists x, illum_gauss l 50 = Err x /\ illum_gauss64 m mexp msq l 50 = Err x).
      { unfold illum_gauss, illum_gauss64. destruct (unpack2 (firstn 2 l)) as [[i_amp c_dB]|x]; cbn [bind]; [|right; exists x; split; reflexivity]. destruct (unpack2 (last2 l)) as [[x0 y0]|x]; cbn [bind]; [|right; exists x; split; reflexivity]. left. split; eexists; reflexivity. }
      cbn [eff eff64 tel_pr]. destruct X as [[[v ->] [v' ->]]|(x & -> & ->)]; cbn [bind]; split; intros X; congruence.
    + exfalso. destruct (A ee') as [_ A2]. specialize (A2 eq_refl). discriminate.
    + exfalso. destruct (A ee) as [A1 _]. specialize (A1 eq_refl). discriminate.
    + destruct (A ee) as [A1 _]. specialize (A1 eq_refl). split; intros X; congruence.
  - rewrite rad_small by exact N2. unfold radiation_pattern64. cbv zeta. unfold py_get. destruct N as [|[|N']]; [| |lia]; cbn [seq map nth_error bind]; reflexivity.
Qed.
