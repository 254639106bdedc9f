(** Rounding errors of the phase map. *)
From Coq Require Import Reals List Lra Lia ZArith.
From Verif Require Import PyBase PyLib Sums Num MZernike SZernike MMath MAperture MRad SFloat MFloat MFloat2 MFloat3 SRound SRound2 PPolar PZernike PZern2 PEnum PWave PPhase PPhase2 PSym POrder64 PRound PRound2 PRound4 PRound5 PRound7 PRound8 PSim.
From Coquelicot Require Import Complex.
Import ListNotations.
Open Scope R_scope.

Lemma phase_heap64_spec lm at2 h p pr piston tilt resolution :
  exists b, phase_heap64 lm at2 h p pr piston tilt resolution =
    (h ++ [b], bind (phase_coeffs (nth p h []) piston tilt) (fun K' => phase_map64 lm at2 K' pr resolution)).
Proof.
  unfold phase_heap64, phase_coeffs, hset_tilt. set (K := nth p h []). clearbody K. cbv zeta.
  assert (Hl : forall b, nth (length h) (h ++ [b]) [] = b).
  { intros b. rewrite app_nth2 by lia. rewrite Nat.sub_diag. reflexivity. }
  destruct piston.
  - destruct tilt; cbn [bind].
    + eexists. rewrite Hl. reflexivity.
    + rewrite hset_last. destruct (py_set K 1 0) as [K1|e]; cbn [bind].
      * rewrite hset_last. destruct (py_set K1 2 0) as [K2|e]; cbn [bind]; [rewrite Hl|]; eexists; reflexivity.
      * eexists; reflexivity.
  - rewrite hset_last. destruct (py_set K 0 0) as [K0|e]; cbn [bind]; [|eexists; reflexivity].
    destruct tilt; cbn [bind].
    + eexists. rewrite Hl. reflexivity.
    + rewrite hset_last. destruct (py_set K0 1 0) as [K1|e]; cbn [bind].
      * rewrite hset_last. destruct (py_set K1 2 0) as [K2|e]; cbn [bind]; [rewrite Hl|]; eexists; reflexivity.
      * eexists; reflexivity.
Qed.
Lemma phase64_unfold lm at2 K pr piston tilt resolution : phase64 lm at2 K pr piston tilt resolution =
  bind (phase_coeffs K piston tilt) (fun K' => phase_map64 lm at2 K' pr resolution).
Proof. unfold phase64. destruct (phase_heap64_spec lm at2 [K] 0 pr piston tilt resolution) as (b & ->). reflexivity. Qed.

(** ** Polar coordinates *)
Lemma small_300 : tiny <= / 2 ^ 300 /\ sqrt (4 * T) <= / 2 ^ 300.
Proof.
  assert (T3 : tiny <= / 2 ^ 300) by (unfold tiny; apply Rinv_le_contravar; [apply pow_lt; lra|apply Rle_pow; [lra|lia]]). split; [exact T3|]. apply Rle_trans with (sqrt (/ 2 ^ 300 * / 2 ^ 300)); [|rewrite sqrt_square; [lra|left; apply Rinv_0_lt_compat, pow_lt; lra]].
  apply sqrt_le_1_alt. unfold T. apply Rle_trans with tiny; [pose proof tiny_pos; lra|]. unfold tiny. rewrite <- Rinv_mult, <- pow_add. apply Rinv_le_contravar; [apply pow_lt; lra|apply Rle_pow; [lra|lia]].
Qed.
Lemma radius_err r a b : / 2 ^ 100 <= r -> sqrt (a ^ 2 + b ^ 2) <= 101 / 100 * r -> Rabs (fl (sqrt (fl (square64 a + square64 b))) - sqrt (a ^ 2 + b ^ 2)) <= 33 / 10 * u * r.
Proof.
  intros Hr Hs. destruct small_300 as [T3 S3]. assert (P0 : 0 < / 2 ^ 100) by (apply Rinv_0_lt_compat, pow_lt; lra). destruct (square_err a) as [A0 Ea], (square_err b) as [B0 Eb]. set (m := a ^ 2 + b ^ 2) in *. pose proof tiny_pos as Tp. pose proof T_pos as Tq.
  pose proof (fl_u (square64 a + square64 b)) as F. set (s := square64 a + square64 b) in *. rewrite u_val in *.
  assert (Es : Rabs (s - m) <= / 9007199254740992 * (m + 2 * T)). { unfold s, m. replace (square64 a + square64 b - (a ^ 2 + b ^ 2)) with ((square64 a - a ^ 2) + (square64 b - b ^ 2)) by ring. eapply Rle_trans; [apply Rabs_triang|]. lra. }
  assert (M0 : 0 <= m) by (unfold m; lra). assert (Sm : Rabs s <= 101 / 100 * (m + 2 * T)). { replace s with (m + (s - m)) by ring. eapply Rle_trans; [apply Rabs_triang|]. rewrite (Rabs_pos_eq m) by exact M0. lra. }
  assert (E1 : Rabs (fl s - m) <= 205 / 100 * / 9007199254740992 * (m + 4 * T)). { replace (fl s - m) with ((fl s - s) + (s - m)) by ring. eapply Rle_trans; [apply Rabs_triang|]. lra. }
  assert (Fp : 0 <= fl s) by (apply fl_pos; unfold s, square64; apply Rplus_le_le_0_compat; apply fl_pos; nra).
  pose proof (sqrt_err (205 / 100 * / 9007199254740992) (4 * T) (fl s) m ltac:(lra) ltac:(lra) Fp M0 E1) as E2. pose proof (sqrt_pos m) as Q0. set (q := sqrt m) in *. set (q' := sqrt (fl s)) in *. pose proof (fl_u q') as F2. rewrite u_val in F2.
  assert (Z : 3 * sqrt (4 * T) <= / 1000 * / 9007199254740992 * r). { apply Rle_trans with (3 * / 2 ^ 300); [lra|]. apply Rle_trans with (/ 1000 * / 9007199254740992 * / 2 ^ 100); [lra|]. apply Rmult_le_compat_l; lra. }
  assert (Q' : Rabs q' <= 102 / 100 * r). { replace q' with (q + (q' - q)) by ring. eapply Rle_trans; [apply Rabs_triang|]. rewrite (Rabs_pos_eq q) by exact Q0. lra. }
  assert (T1 : T <= / 100 * r) by (unfold T; lra). replace (fl q' - q) with ((fl q' - q') + (q' - q)) by ring. eapply Rle_trans; [apply Rabs_triang|]. lra.
Qed.
Lemma pol_xy r x y : 0 < r -> pol (sqrt (x ^ 2 + y ^ 2) / r) (arctan2 y x) = (x / r, y / r).
Proof.
  intros H. unfold pol. pose proof (cart2pol_cos x y) as Hc. pose proof (cart2pol_sin x y) as Hs. set (q := sqrt (x ^ 2 + y ^ 2)) in *.
  replace (q / r * cos (arctan2 y x)) with (q * cos (arctan2 y x) / r) by (unfold Rdiv; ring). replace (q / r * sin (arctan2 y x)) with (q * sin (arctan2 y x) / r) by (unfold Rdiv; ring). rewrite Hc, Hs. reflexivity.
Qed.
Lemma Cmod_le (a b : R) : Cmod (a, b) <= Rabs a + Rabs b.
Proof.
  unfold Cmod. cbn [fst snd]. rewrite <- (sqrt_Rsqr (Rabs a + Rabs b)) by (pose proof (Rabs_pos a); pose proof (Rabs_pos b); lra). apply sqrt_le_1_alt. unfold Rsqr.
  rewrite <- (pow2_abs a), <- (pow2_abs b). pose proof (Rabs_pos a). pose proof (Rabs_pos b). nra.
Qed.
Lemma turn_Z k t : cos (t + 2 * PI * IZR k) = cos t /\ sin (t + 2 * PI * IZR k) = sin t.
Proof.
  assert (N : forall n, cos (t + 2 * PI * INR n) = cos t /\ sin (t + 2 * PI * INR n) = sin t) by (intros n; replace (t + 2 * PI * INR n) with (t + 2 * INR n * PI) by ring; split; [apply cos_period|apply sin_period]).
  destruct (Z.le_ge_cases 0 k) as [L|L].
  - replace (IZR k) with (INR (Z.to_nat k)) by (rewrite INR_IZR_INZ, Z2Nat.id by exact L; reflexivity). apply N.
  - assert (E : IZR k = - INR (Z.to_nat (- k))) by (rewrite INR_IZR_INZ, Z2Nat.id by lia; rewrite opp_IZR; ring). rewrite E.
    set (n := Z.to_nat (- k)). replace (t + 2 * PI * - INR n) with (t - 2 * INR n * PI) by ring. rewrite <- (cos_period (t - 2 * INR n * PI) n), <- (sin_period (t - 2 * INR n * PI) n). replace (t - 2 * INR n * PI + 2 * INR n * PI) with t by ring. split; reflexivity.
Qed.
Lemma angle_apart e at2 x y q : accurate_angle e at2 -> 0 <= q <= 101 / 100 -> Cmod (Cminus (pol q (at2 y x)) (pol q (arctan2 y x))) <= 202 / 100 * e.
Proof.
  intros Ha Hq. destruct (Ha y x) as (_ & k & E). destruct (turn_Z k (arctan2 y x)) as [Ec Es]. unfold pol. rewrite <- Ec, <- Es. set (t := arctan2 y x + 2 * PI * IZR k). set (t' := at2 y x) in *.
  assert (D : Rabs (t' - t) <= e) by (unfold t; replace (t' - (arctan2 y x + 2 * PI * IZR k)) with (t' - arctan2 y x - 2 * PI * IZR k) by ring; exact E).
  unfold Cminus, Cplus, Copp. cbn [fst snd]. eapply Rle_trans; [apply Cmod_le|]. replace (q * cos t' + - (q * cos t)) with (q * (cos t' - cos t)) by ring. replace (q * sin t' + - (q * sin t)) with (q * (sin t' - sin t)) by ring. rewrite !Rabs_mult, (Rabs_pos_eq q) by lra.
  pose proof (cos_lip t' t). pose proof (sin_lip t' t). pose proof (Rabs_pos (cos t' - cos t)). pose proof (Rabs_pos (sin t' - sin t)). nra.
Qed.

(** The polar coordinates that the code computes at a pixel inside the dish are near the exact ones, and on the dish. *)
Lemma pixel_near e at2 r n i j : accurate_angle e at2 -> u <= e -> e <= / 1000 -> / 2 ^ 100 <= r -> INR n <= 2 ^ 50 -> (2 <= n)%nat -> (i < n)%nat -> (j < n)%nat ->
  let x := nth i (linspace (- r) r n) 0 in let y := nth j (linspace (- r) r n) 0 in let x64 := linspace64 (- r) r n i in let y64 := linspace64 (- r) r n j in
  x ^ 2 + y ^ 2 <= (1 - / 2 ^ 47) * r ^ 2 ->
  let rho64 := fl (fl (sqrt (fl (square64 x64 + square64 y64))) / r) in
  0 <= rho64 <= 1 /\ apart rho64 (at2 y64 x64) (sqrt (x ^ 2 + y ^ 2) / r) (arctan2 y x) <= 24 * e /\ 0 <= sqrt (x ^ 2 + y ^ 2) / r <= 1.
Proof.
  intros Ha Ue E1 Hr Hn N Hi Hj x y x64 y64 Hin rho64. destruct small_300 as [T3 _]. assert (P0 : 0 < / 2 ^ 100) by (apply Rinv_0_lt_compat, pow_lt; lra). assert (R0 : 0 < r) by lra. assert (Tr : tiny * 2 ^ 60 <= r) by (apply Rle_trans with (2 := Hr); lra).
  pose proof (grid_err r n i Tr Hn N Hi) as Gx. pose proof (grid_err r n j Tr Hn N Hj) as Gy. rewrite <- node_linspace in Gx, Gy by assumption. fold x x64 in Gx. fold y y64 in Gy. rewrite u_val in *.
  set (q := sqrt (x ^ 2 + y ^ 2) / r). set (a := sqrt (x64 ^ 2 + y64 ^ 2) / r).
  assert (Sq : 0 <= q <= 1 - / 2 ^ 48).
  { split; [apply Rmult_le_pos; [apply sqrt_pos|left; apply Rinv_0_lt_compat, R0]|]. apply Rmult_le_reg_r with r; [exact R0|]. unfold q, Rdiv. rewrite Rmult_assoc, Rinv_l, Rmult_1_r by lra.
    apply Rle_trans with (sqrt (((1 - / 2 ^ 48) * r) * ((1 - / 2 ^ 48) * r))); [|rewrite sqrt_square; [lra|apply Rmult_le_pos; lra]]. apply sqrt_le_1_alt. eapply Rle_trans; [exact Hin|]. assert (0 < r * r) by nra. nra. }
  assert (Pp : Cmod (Cminus (pol a (arctan2 y64 x64)) (pol q (arctan2 y x))) <= 165 / 10 * / 9007199254740992).
  { unfold a, q. rewrite !pol_xy by exact R0. unfold Cminus, Cplus, Copp. cbn [fst snd]. eapply Rle_trans; [apply Cmod_le|]. replace (x64 / r + - (x / r)) with ((x64 - x) * / r) by (unfold Rdiv; ring). replace (y64 / r + - (y / r)) with ((y64 - y) * / r) by (unfold Rdiv; ring).
    rewrite !Rabs_mult, (Rabs_pos_eq (/ r)) by (left; apply Rinv_0_lt_compat, R0). apply Rmult_le_reg_r with r; [exact R0|]. rewrite Rmult_plus_distr_r, !Rmult_assoc, Rinv_l by lra. lra. }
  assert (A0 : 0 <= a) by (apply Rmult_le_pos; [apply sqrt_pos|left; apply Rinv_0_lt_compat, R0]). pose proof (radius_lip a (arctan2 y64 x64) q (arctan2 y x) A0 (proj1 Sq)) as Ra. unfold apart in Ra. assert (Ra' : Rabs (a - q) <= 165 / 10 * / 9007199254740992) by lra. apply Rabs_le_iff in Ra'.
  assert (Sa : sqrt (x64 ^ 2 + y64 ^ 2) = a * r) by (unfold a, Rdiv; rewrite Rmult_assoc, Rinv_l; lra). assert (Sb : sqrt (x64 ^ 2 + y64 ^ 2) <= 101 / 100 * r) by (rewrite Sa; apply Rmult_le_compat_r; lra).
  pose proof (radius_err r x64 y64 Hr Sb) as Er. rewrite Sa, u_val in Er. set (R64 := fl (sqrt (fl (square64 x64 + square64 y64)))) in *.
  assert (Ed : Rabs (R64 / r - a) <= 33 / 10 * / 9007199254740992). { replace (R64 / r - a) with ((R64 - a * r) * / r) by (field; lra). rewrite Rabs_mult, (Rabs_pos_eq (/ r)) by (left; apply Rinv_0_lt_compat, R0). apply Rmult_le_reg_r with r; [exact R0|]. rewrite Rmult_assoc, Rinv_l, Rmult_1_r by lra. exact Er. }
  pose proof (fl_u (R64 / r)) as F. fold rho64 in F. rewrite u_val in F. apply Rabs_le_iff in Ed. assert (Rd : Rabs (R64 / r) <= 101 / 100) by (apply Rabs_le; lra). assert (T1 : T <= / 100) by (unfold T; lra).
  assert (F' : Rabs (rho64 - a) <= 44 / 10 * / 9007199254740992). { replace (rho64 - a) with ((rho64 - R64 / r) + (R64 / r - a)) by ring. eapply Rle_trans; [apply Rabs_triang|]. assert (Rabs (R64 / r - a) <= 33 / 10 * / 9007199254740992) by (apply Rabs_le; lra). lra. }
  assert (R64p : 0 <= R64) by (apply fl_pos, sqrt_pos). assert (Rp : 0 <= rho64) by (apply fl_pos, Rmult_le_pos; [exact R64p|left; apply Rinv_0_lt_compat, R0]). split; [|split; [|lra]].
  - split; [exact Rp|]. apply Rabs_le_iff in F'. lra.
  - unfold apart. set (t64 := at2 y64 x64). replace (Cminus (pol rho64 t64) (pol q (arctan2 y x))) with (Cplus (Cplus (Cminus (pol rho64 t64) (pol a t64)) (Cminus (pol a t64) (pol a (arctan2 y64 x64)))) (Cminus (pol a (arctan2 y64 x64)) (pol q (arctan2 y x)))) by (unfold Cminus; ring).
    eapply Rle_trans; [apply Cmod_triangle|]. eapply Rle_trans; [apply Rplus_le_compat_r, Cmod_triangle|]. pose proof (angle_apart e at2 x64 y64 a Ha ltac:(lra)) as Q2. fold t64 in Q2.
    assert (Q1 : Cmod (Cminus (pol rho64 t64) (pol a t64)) <= 44 / 10 * / 9007199254740992).
    { replace (Cminus (pol rho64 t64) (pol a t64)) with (pol (rho64 - a) t64) by (unfold pol, Cminus, Cplus, Copp; cbn [fst snd]; f_equal; ring). destruct (Rle_dec 0 (rho64 - a)) as [L|L].
      - rewrite pol_mod by exact L. rewrite Rabs_pos_eq in F' by exact L. exact F'.
      - replace (pol (rho64 - a) t64) with (Copp (pol (a - rho64) t64)) by (unfold pol, Copp; cbn [fst snd]; f_equal; ring). rewrite Cmod_opp, pol_mod by lra. rewrite Rabs_left1 in F' by lra. lra. }
    lra.
Qed.

(** ** Values *)
Lemma total_abs_py K : total_abs K = py_sum (map Rabs K).
Proof. induction K as [|k K IH]; [reflexivity|]. cbn [map]. rewrite py_sum_cons, <- IH. reflexivity. Qed.
Lemma loss_12 n : 12 <= loss n.
Proof. unfold loss. pose proof (bernoulli n). pose proof (pos_INR n). nra. Qed.
Lemma tiny_1 : tiny <= 1. Proof. destruct small_300 as [H _]. eapply Rle_trans; [exact H|]. rewrite <- Rinv_1. apply Rinv_le_contravar; [lra|]. apply pow_R1_Rle. lra. Qed.
Definition size (K : list R) : R := total_abs K + INR (length K) * tiny.
Lemma size_tiny K : (1 <= length K)%nat -> tiny <= size K /\ total_abs K <= size K.
Proof.
  intros H. unfold size. assert (1 <= INR (length K)) by (apply (le_INR 1); exact H). pose proof tiny_pos. pose proof (py_sum_abs_nonneg K) as P. rewrite <- total_abs_py in P. nra.
Qed.
Lemma W64_near e lm at2 (n : nat) K r N i j W W64 : accurate e lm -> accurate_angle e at2 -> unit_roundoff <= e -> (2 * length K = (n + 1) * (n + 2))%nat -> (8 * Z.of_nat (length K) + 1 < 2 ^ 53)%Z -> loss n * e <= / 200 ->
  wavefront K = Ok W -> wavefront64 lm K = Ok W64 -> / 2 ^ 100 <= r -> INR N <= 2 ^ 50 -> (2 <= N)%nat -> (i < N)%nat -> (j < N)%nat ->
  let x := nth i (linspace (- r) r N) 0 in let y := nth j (linspace (- r) r N) 0 in let x64 := linspace64 (- r) r N i in let y64 := linspace64 (- r) r N j in
  x ^ 2 + y ^ 2 <= (1 - / 2 ^ 47) * r ^ 2 ->
  Rabs (W64 (fl (fl (sqrt (fl (square64 x64 + square64 y64))) / r)) (at2 y64 x64) - W (sqrt (x ^ 2 + y ^ 2) / r) (arctan2 y x)) <= 14 * loss n * e * size K /\
  Rabs (W (sqrt (x ^ 2 + y ^ 2) / r) (arctan2 y x)) <= size K.
Proof.
  intros Hl Ha Ue HK H53 Hloss EW EW64 Hr HN N2 Hi Hj x y x64 y64 Hin. pose proof roundoff_pos as Up. assert (E0 : 0 <= e) by lra. pose proof (loss_small n e E0 ltac:(lra)) as E1.
  destruct (W_err e lm n K Hl Ue HK H53 ltac:(lra)) as (W' & W64' & EW' & EW64' & HW). rewrite EW in EW'. rewrite EW64 in EW64'. apply Ok_inj in EW'. apply Ok_inj in EW64'. subst W' W64'.
  destruct (pixel_near e at2 r N i j Ha Ue E1 Hr HN N2 Hi Hj Hin) as (R64 & Ap & R1). fold x y x64 y64 in R64, Ap, R1. set (rho64 := fl (fl (sqrt (fl (square64 x64 + square64 y64))) / r)) in *. set (rho := sqrt (x ^ 2 + y ^ 2) / r) in *.
  assert (L1 : (1 <= length K)%nat) by nia. destruct (size_tiny K L1) as [S1 S2]. pose proof tiny_pos as Tp. split.
  - pose proof (HW rho64 (at2 y64 x64) R64 (proj1 (Ha y64 x64))) as A. fold (size K) in A. pose proof (W_lip K n W HK EW rho64 (at2 y64 x64) rho (arctan2 y x) R64 R1) as B.
    assert (Q : INR n * (5 / 2) ^ n <= loss n / 2). { unfold loss. pose proof (bernoulli n). pose proof (pos_INR n). nra. }
    assert (Q0 : 0 <= INR n * (5 / 2) ^ n) by (apply Rmult_le_pos; [apply pos_INR|apply pow_le; lra]).
    assert (B' : INR n * (5 / 2) ^ n * apart rho64 (at2 y64 x64) rho (arctan2 y x) * total_abs K <= loss n / 2 * (24 * e) * size K).
    { apply Rmult_le_compat; [apply Rmult_le_pos; [exact Q0|apply apart_pos]| |apply Rmult_le_compat; [exact Q0|apply apart_pos|exact Q|exact Ap]|exact S2]. rewrite total_abs_py. apply py_sum_abs_nonneg. }
    replace (W64 rho64 (at2 y64 x64) - W rho (arctan2 y x)) with ((W64 rho64 (at2 y64 x64) - W rho64 (at2 y64 x64)) + (W rho64 (at2 y64 x64) - W rho (arctan2 y x))) by ring. eapply Rle_trans; [apply Rabs_triang|]. lra.
  - eapply Rle_trans; [apply (wavefront_bound K W rho _ EW); lra|]. rewrite <- total_abs_py. exact S2.
Qed.
Lemma twice_pi e k w v v' : unit_roundoff <= e -> e <= / 1000 -> 0 <= k -> k * e <= 8 / 100 -> Rabs (v' - v) <= k * e * w -> Rabs v <= w -> tiny <= w ->
  Rabs (fl (fl (v' * 2) * fl PI) - v * 2 * PI) <= (k + 4) * e * (2 * PI * w).
Proof.
  intros Ue E1 K0 Hk H Hv Hw. pose proof roundoff_pos as Up. pose proof tiny_pos as Tp. pose proof tiny_1 as T1. pose proof PI_RGT_0 as P0. assert (P1 : 1 <= PI) by (pose proof PI2_1; lra).
  assert (S1 : Rabs (v' * 2 - v * 2) <= k * e * (2 * w)) by (rewrite <- Rmult_minus_distr_r, Rabs_mult, (Rabs_pos_eq 2) by lra; lra).
  assert (S2 : Rabs (v * 2) <= 2 * w) by (rewrite Rabs_mult, (Rabs_pos_eq 2) by lra; lra).
  pose proof (fl_step e k (2 * w) (v' * 2) (v * 2) Ue E1 S1 S2 ltac:(lra) ltac:(lra)) as S3.
  assert (S4 : Rabs (fl PI - PI) <= 11 / 10 * e * PI). { eapply Rle_trans; [apply (fl_err e PI Ue)|]. rewrite (Rabs_pos_eq PI) by lra. nra. }
  assert (K1 : (k + 6 / 5) * e <= / 10) by lra.
  pose proof (mul_step e (k + 6 / 5) (11 / 10) (2 * w) PI (fl (v' * 2)) (v * 2) (fl PI) PI ltac:(lra) ltac:(lra) ltac:(lra) ltac:(lra) K1 S3 S4 S2 ltac:(rewrite Rabs_pos_eq; lra)) as S5.
  assert (W1 : tiny <= 2 * w * PI) by nra.
  assert (S6 : Rabs (v * 2 * PI) <= 2 * w * PI) by (rewrite Rabs_mult, (Rabs_pos_eq PI) by lra; apply Rmult_le_compat_r; lra).
  assert (K2 : (k + 6 / 5 + 11 / 10 * (11 / 10)) * e <= / 10) by lra.
  pose proof (fl_step e _ (2 * w * PI) _ _ Ue E1 S5 S6 W1 K2) as S7. eapply Rle_trans; [exact S7|]. replace (2 * PI * w) with (2 * w * PI) by ring. apply Rmult_le_compat_r; [nra|]. apply Rmult_le_compat_r; lra.
Qed.

(** ** The map *)
Lemma pixel64_nth (F : R * R -> R) (g : nat -> R) N i j : (i < N)%nat -> (j < N)%nat ->
  length (map2d F (meshgrid (map g (seq 0 N)) (map g (seq 0 N)))) = N /\ length (nth j (map2d F (meshgrid (map g (seq 0 N)) (map g (seq 0 N)))) []) = N /\
  nth i (nth j (map2d F (meshgrid (map g (seq 0 N)) (map g (seq 0 N)))) []) 0 = F (g i, g j).
Proof.
  intros Hi Hj. unfold map2d, meshgrid. split; [rewrite !map_length, seq_length; reflexivity|].
  assert (E : nth j (map (map F) (map (fun yj => map (fun xi => (xi, yj)) (map g (seq 0 N))) (map g (seq 0 N)))) [] = map (fun a => F (g a, g j)) (seq 0 N)).
  { rewrite !map_map. rewrite nth_indep with (d' := (fun a => map F (map (fun xi => (xi, g a)) (map g (seq 0 N)))) O) by (rewrite map_length, seq_length; exact Hj).
    rewrite map_nth with (f := fun a => map F (map (fun xi => (xi, g a)) (map g (seq 0 N)))). rewrite seq_nth by exact Hj. cbn [Nat.add]. rewrite !map_map. reflexivity. }
  rewrite E. split; [rewrite map_length, seq_length; reflexivity|]. rewrite nth_indep with (d' := (fun a => F (g a, g j)) O) by (rewrite map_length, seq_length; exact Hi).
  rewrite map_nth with (f := fun a => F (g a, g j)). rewrite seq_nth by exact Hi. reflexivity.
Qed.
Lemma pixel_map_nth W pr N i j : (i < N)%nat -> (j < N)%nat -> nth i (nth j (pixel_map W pr N) []) 0 = pixel W pr (nth i (linspace (- pr) pr N) 0) (nth j (linspace (- pr) pr N) 0).
Proof.
  intros Hi Hj. unfold pixel_map. set (l := linspace (- pr) pr N). assert (L : length l = N) by apply linspace_length.
  rewrite nth_indep with (d' := (fun y => map (fun x => pixel W pr x y) l) 0) by (rewrite map_length, L; exact Hj). rewrite map_nth with (f := fun y => map (fun x => pixel W pr x y) l).
  rewrite nth_indep with (d' := (fun x => pixel W pr x (nth j l 0)) 0) by (rewrite map_length, L; exact Hi). rewrite map_nth with (f := fun x => pixel W pr x (nth j l 0)). reflexivity.
Qed.
Lemma pixel_step e lm at2 (n : nat) K r N i j W W64 : accurate e lm -> accurate_angle e at2 -> unit_roundoff <= e -> (2 * length K = (n + 1) * (n + 2))%nat -> (8 * Z.of_nat (length K) + 1 < 2 ^ 53)%Z -> loss n * e <= / 200 ->
  wavefront K = Ok W -> wavefront64 lm K = Ok W64 -> / 2 ^ 100 <= r -> INR N <= 2 ^ 50 -> (2 <= N)%nat -> (i < N)%nat -> (j < N)%nat ->
  let x := nth i (linspace (- r) r N) 0 in let y := nth j (linspace (- r) r N) 0 in let x64 := linspace64 (- r) r N i in let y64 := linspace64 (- r) r N j in
  / 2 ^ 47 * r ^ 2 < Rabs (x ^ 2 + y ^ 2 - r ^ 2) ->
  Rabs (fl (fl ((if outside64 r N i j then 0 else W64 (fl (fl (sqrt (fl (square64 x64 + square64 y64))) / r)) (at2 y64 x64)) * 2) * fl PI) - pixel W r x y) <= 15 * loss n * e * (2 * PI * size K).
Proof.
  intros Hl Ha Ue HK H53 Hloss EW EW64 Hr HN N2 Hi Hj x y x64 y64 Hoff. pose proof roundoff_pos as Up. assert (E0 : 0 <= e) by lra. pose proof (loss_small n e E0 ltac:(lra)) as E1. pose proof (loss_12 n) as L12.
  rewrite (rim r N i j Hr HN N2 Hi Hj Hoff). fold x y. unfold pixel. pose proof PI_RGT_0 as P0. assert (L1 : (1 <= length K)%nat) by nia. destruct (size_tiny K L1) as [S1 S2]. pose proof tiny_pos as Tp.
  destruct (Rltb (r ^ 2) (x ^ 2 + y ^ 2)) eqn:Er.
  - rewrite !Rmult_0_l, POrder64.fl_0, Rmult_0_l, POrder64.fl_0, Rminus_diag_eq, Rabs_R0 by reflexivity. apply Rmult_le_pos; [apply Rmult_le_pos; lra|apply Rmult_le_pos; lra].
  - apply Rltb_false in Er. rewrite Rabs_left1 in Hoff by lra. assert (Hin : x ^ 2 + y ^ 2 <= (1 - / 2 ^ 47) * r ^ 2) by lra.
    destruct (W64_near e lm at2 n K r N i j W W64 Hl Ha Ue HK H53 Hloss EW EW64 Hr HN N2 Hi Hj Hin) as [A B]. fold x y x64 y64 in A, B.
    eapply Rle_trans; [apply (twice_pi e (14 * loss n) (size K) _ _ Ue E1 ltac:(lra) ltac:(lra) A B S1)|]. apply Rmult_le_compat_r; [apply Rmult_le_pos; lra|]. apply Rmult_le_compat_r; lra.
Qed.
Lemma phase_err e lm at2 (n : nat) K pr piston tilt N : accurate e lm -> accurate_angle e at2 -> unit_roundoff <= e -> (2 * length K = (n + 1) * (n + 2))%nat -> (tilt = false -> 1 <= n)%nat -> (8 * Z.of_nat (length K) + 1 < 2 ^ 53)%Z -> loss n * e <= / 200 ->
  / 2 ^ 100 <= pr -> INR N <= 2 ^ 50 -> (2 <= N)%nat ->
  exists x y phi x64 y64 phi64, phase K pr piston tilt N = Ok (x, y, phi) /\ phase64 lm at2 K pr piston tilt N = Ok (x64, y64, phi64) /\ length phi64 = N /\
    forall i j, (i < N)%nat -> (j < N)%nat -> length (nth j phi64 []) = N /\
      (/ 2 ^ 47 * pr ^ 2 < Rabs (nth i x 0 ^ 2 + nth j y 0 ^ 2 - pr ^ 2) ->
       Rabs (nth i (nth j phi64 []) 0 - nth i (nth j phi []) 0) <= 15 * loss n * e * (2 * PI * (total_abs K + INR (length K) * tiny))).
Proof.
  intros Hl Ha Ue HK Hn H53 Hloss Hr HN N2. pose proof roundoff_pos as Up. assert (E0 : 0 <= e) by lra.
  destruct (phase_coeffs_ok K piston tilt) as (K' & E & HL & _). { nia. } { intros ET. specialize (Hn ET). nia. }
  rewrite phase_unfold, phase64_unfold, E. cbn [bind]. rewrite phase_map_unfold. unfold phase_map64. cbv zeta.
  destruct (W_err e lm n K' Hl Ue ltac:(rewrite HL; exact HK) ltac:(rewrite HL; exact H53) ltac:(lra)) as (W & W64 & EW & EW64 & _). rewrite EW, EW64. cbn [bind].
  do 6 eexists. split; [reflexivity|]. split; [reflexivity|]. split; [exact (proj1 (pixel64_nth _ _ N O O ltac:(lia) ltac:(lia)))|]. intros i j Hi Hj. destruct (pixel64_nth (fun '(xx, yy) =>
      let '(r, t) := cart2pol64 at2 xx yy in
      fl (fl ((if Rltb (square64 pr) (fl (square64 xx + square64 yy)) then 0 else W64 (fl (r / pr)) t) * 2) * fl PI)) (linspace64 (- pr) pr N) N i j Hi Hj) as (_ & L & V). split; [exact L|]. intros Hoff. rewrite V, pixel_map_nth by assumption.
  unfold cart2pol64. eapply Rle_trans; [apply (pixel_step e lm at2 n K' pr N i j W W64 Hl Ha Ue ltac:(rewrite HL; exact HK) ltac:(rewrite HL; exact H53) Hloss EW EW64 Hr HN N2 Hi Hj Hoff)|].
  unfold size. rewrite HL. pose proof (phase_coeffs_abs_sum K piston tilt K' E) as Q. rewrite <- !total_abs_py in Q. pose proof (loss_12 n). pose proof PI_RGT_0. apply Rmult_le_compat_l; [apply Rmult_le_pos; lra|]. apply Rmult_le_compat_l; lra.
Qed.
Lemma phase_err_even e lm at2 (n : nat) K pr piston tilt N : accurate e lm -> accurate_angle e at2 -> unit_roundoff <= e -> (2 * length K = (n + 1) * (n + 2))%nat -> (tilt = false -> 1 <= n)%nat -> (8 * Z.of_nat (length K) + 1 < 2 ^ 53)%Z -> loss n * e <= / 200 ->
  / 2 ^ 100 <= pr -> INR N <= 2 ^ 23 -> (2 <= N)%nat -> Nat.even N = true ->
  exists x y phi x64 y64 phi64, phase K pr piston tilt N = Ok (x, y, phi) /\ phase64 lm at2 K pr piston tilt N = Ok (x64, y64, phi64) /\
    forall i j, (i < N)%nat -> (j < N)%nat ->
       Rabs (nth i (nth j phi64 []) 0 - nth i (nth j phi []) 0) <= 15 * loss n * e * (2 * PI * (total_abs K + INR (length K) * tiny)).
Proof.
  intros Hl Ha Ue HK Hn H53 Hloss Hr HN N2 Ev. assert (P0 : 0 < / 2 ^ 100) by (apply Rinv_0_lt_compat, pow_lt; lra).
  destruct (phase_err e lm at2 n K pr piston tilt N Hl Ha Ue HK Hn H53 Hloss Hr ltac:(lra) N2) as (x & y & phi & x64 & y64 & phi64 & E & E64 & _ & H). exists x, y, phi, x64, y64, phi64. split; [exact E|]. split; [exact E64|].
  intros i j Hi Hj. apply (proj2 (H i j Hi Hj)). destruct (phase_inv _ _ _ _ _ _ _ _ E) as (_ & _ & _ & _ & -> & -> & _). rewrite !node_linspace by assumption.
  eapply Rlt_le_trans; [|apply (off_rim pr N i j); [lra|exact N2|exact Ev]]. rewrite Rmult_comm. apply Rmult_lt_compat_l; [apply pow_lt; lra|].
  assert (N1 : 1 <= INR (N - 1)) by (apply (le_INR 1); lia). assert (N3 : INR (N - 1) <= 2 ^ 23) by (rewrite minus_INR by lia; cbn [INR]; lra). apply Rinv_lt_contravar; [apply Rmult_lt_0_compat; [apply pow_lt; lra|apply pow_lt; lra]|].
  apply Rle_lt_trans with ((2 ^ 23) ^ 2); [apply pow_incr; lra|lra].
Qed.
Lemma phase_err_ten lm at2 (n : nat) K pr piston tilt N : accurate (/ 2 ^ 52) lm -> accurate_angle (/ 2 ^ 52) at2 -> (n <= 10)%nat -> (2 * length K = (n + 1) * (n + 2))%nat -> (tilt = false -> 1 <= n)%nat ->
  / 2 ^ 100 <= pr -> INR N <= 2 ^ 23 -> (2 <= N)%nat -> Nat.even N = true ->
  exists x y phi x64 y64 phi64, phase K pr piston tilt N = Ok (x, y, phi) /\ phase64 lm at2 K pr piston tilt N = Ok (x64, y64, phi64) /\
    forall i j, (i < N)%nat -> (j < N)%nat ->
       Rabs (nth i (nth j phi64 []) 0 - nth i (nth j phi []) 0) <= / 2 ^ 29 * (2 * PI * (total_abs K + INR (length K) * tiny)).
Proof.
  intros Hl Ha H10 HK Hn Hr HN N2 Ev. assert (L : loss n <= 310000) by (eapply Rle_trans; [apply (loss_mono n 10 H10)|]; unfold loss; cbn [INR]; lra).
  assert (P : / 2 ^ 52 <= / 4503599627370496) by (apply Rinv_le_contravar; lra). assert (P0 : 0 < / 2 ^ 52) by (apply Rinv_0_lt_compat, pow_lt; lra).
  destruct (phase_err_even (/ 2 ^ 52) lm at2 n K pr piston tilt N Hl Ha) as (x & y & phi & x64 & y64 & phi64 & E & E64 & H); try assumption.
  { unfold unit_roundoff. apply Rinv_le_contravar; lra. } { assert (length K <= 66)%nat by nia. change (2 ^ 53)%Z with 9007199254740992%Z. lia. } { pose proof (loss_12 n). nra. }
  exists x, y, phi, x64, y64, phi64. split; [exact E|]. split; [exact E64|]. intros i j Hi Hj. eapply Rle_trans; [exact (H i j Hi Hj)|]. pose proof PI_RGT_0. assert (L1 : (1 <= length K)%nat) by nia. pose proof (proj1 (size_tiny K L1)) as Sz. unfold size in Sz. pose proof tiny_pos.
  apply Rmult_le_compat_r; [apply Rmult_le_pos; lra|]. apply Rle_trans with (15 * 310000 * / 2 ^ 52); [apply Rmult_le_compat_r; lra|]. lra.
Qed.
Lemma alike_phase lm at2 K pr piston tilt N : (8 * Z.of_nat (length K) + 1 < 2 ^ 53)%Z -> alike (phase K pr piston tilt N) (phase64 lm at2 K pr piston tilt N).
Proof.
  intros H. rewrite phase_unfold, phase64_unfold. apply alike_bind; [apply alike_refl|]. intros K1 K2 E E'. rewrite E in E'. apply Ok_inj in E'. subst K2. unfold phase_map, phase_map64. cbv zeta. apply alike_bind; [|intros; apply alike_ok].
  apply alike_W. assert (L : length K1 = length K); [|rewrite L; exact H].
  assert (PS : forall A B, forall i, py_set A i 0 = Ok B -> length B = length A). { intros A B i EB. unfold py_set in EB. destruct (Nat.ltb i (length A)); [|discriminate EB]. apply Ok_inj in EB. subst B. apply set_nth_length. }
  unfold phase_coeffs in E. destruct (if piston then Ok K else py_set K 0 0) as [A|] eqn:EA; cbn [bind] in E; [|discriminate]. assert (LA : length A = length K) by (destruct piston; [apply Ok_inj in EA; subst A; reflexivity|exact (PS _ _ _ EA)]).
  destruct tilt; [apply Ok_inj in E; subst K1; exact LA|]. destruct (py_set A 1 0) as [B|] eqn:EB; cbn [bind] in E; [|discriminate]. apply PS in EB. apply PS in E. congruence.
Qed.
