(** Ruze's efficiency and the telescopes of the package (C98). *)
From Coq Require Import List ZArith Lia Lra.
From Verif Require Import PyBase PyLib Sums Num MMath MAperture MTel MRad SMath SZernike SRad STel SGain PIllum PTel PAper PFft PRad PRad2 PFar PRms PRms2 PPhase PPhase2 PWave PGain.
From Coquelicot Require Import Complex.
Import ListNotations.
Open Scope R_scope.

Lemma rad_some illum tel I K d_z wavel N bf n Ea : (2 <= N)%nat -> (2 * length K = (n + 1) * (n + 2))%nat -> illum I (tel_pr tel) = Ok Ea ->
  exists u v F, radiation_pattern illum tel I K d_z wavel N bf = Ok (u, v, F).
Proof.
  intros HN HK HI. destruct (aperture_ok illum tel I K d_z wavel n Ea HK HI) as (E & HE & _).
  rewrite rad_unfold by assumption. cbv zeta. rewrite HE. cbn [bind]. eexists _, _, _. reflexivity.
Qed.

(** Peak and loss, with the ratio. *)
Lemma gain_ratio illum tel I K d_z wavel N bf n Ea u v F u0 v0 F0 : (2 * length K = (n + 1) * (n + 2))%nat -> illum I (tel_pr tel) = Ok Ea ->
  (forall x y, 0 <= block_dist tel x y * Ea x y) -> (forall x y, opd_func tel x y 0 = 0) ->
  radiation_pattern illum tel I K d_z wavel N bf = Ok (u, v, F) ->
  radiation_pattern illum tel I (repeat 0 (length K)) 0 wavel N bf = Ok (u0, v0, F0) ->
  let P0 := Cmod (at2 F0 (N / 2) (N / 2)) ^ 2 in 0 < P0 ->
  1 - weighted_variance (tel_pr tel * bf) N (fun x y => block_dist tel x y * Ea x y) (aperture_phase tel n K d_z wavel)
  <= Cmod (at2 F (N / 2) (N / 2)) ^ 2 / P0 <= 1.
Proof.
  intros HK HI HW H0 E E0 P0 HP. destruct (rad_inv _ _ _ _ _ _ _ _ _ _ _ E) as (HN & _).
  assert (HC : (N / 2 < N)%nat) by (apply Nat.div_lt; lia).
  destruct (gain_api illum tel I K d_z wavel N bf n Ea u v F u0 v0 F0 HK HI HW H0 E E0) as (_ & B & L). fold P0 in B, L.
  split; apply (Rmult_le_reg_r P0); trivial; unfold Rdiv; rewrite ?Rmult_assoc, Rinv_l by lra; rewrite ?Rmult_1_r, ?Rmult_1_l.
  - rewrite Rmult_comm. apply L, HP.
  - apply B; assumption.
Qed.

(** A transparent dish with the parabolic illumination centred on it. *)
Lemma dish_manual pr sr a L i_amp c_dB q Ea x y : 0 < pr -> 0 < i_amp -> c_dB < 0 -> 0 < q ->
  illum_parabolic [i_amp; c_dB; q; 0; 0] pr = Ok Ea -> 0 <= block_manual pr sr a L x y * Ea x y.
Proof.
  intros Hp Ha Hc Hq E. destruct (block_manual_iff pr sr a L x y) as ([Z|O] & B); [rewrite Z; lra|].
  rewrite O, Rmult_1_l. apply B in O as (In & _); unfold annulus in In.
  destruct (par_api i_amp c_dB q 0 0 pr Ea Hp Hq Hc Ha E) as (_ & _ & _ & D).
  destruct (D x y) as [D1 _]. { rewrite !Rminus_0_r. lra. }
  pose proof (c_dB_pos c_dB). nra.
Qed.

(** Weighted variance is at most the weighted mean square. *)
Lemma variance_mean_square box N w f : 0 < over_samples box N w ->
  weighted_variance box N w f <= weighted_mean box N w (fun x y => f x y ^ 2).
Proof.
  intros H. pose proof (variance_moments box N w f ltac:(lra)) as M. unfold weighted_mean at 1.
  set (W := over_samples box N w) in *. set (A := over_samples box N (fun x y => w x y * f x y)) in *. set (B := over_samples box N (fun x y => w x y * f x y ^ 2)) in *.
  apply (Rmult_le_reg_l (W ^ 2)); [nra|]. rewrite M. unfold Rdiv. replace (W ^ 2 * (B * / W)) with (W * B) by (field; lra). nra.
Qed.

Lemma pixel_map_grid W pr N : (2 <= N)%nat -> pixel_map W pr N = grid N (fun j i => pixel W pr (sample pr N i) (sample pr N j)).
Proof.
  intros HN. unfold pixel_map, grid.
  assert (G : forall (T : Type) (f : R -> T), map f (linspace (- pr) pr N) = map (fun i => f (sample pr N i)) (seq 0 N)).
  { intros T f. rewrite <- (map_map (sample pr N) f). f_equal. apply (nth_ext _ _ 0 0); [rewrite linspace_length, map_length, seq_length; reflexivity|].
    intros i Hi. rewrite linspace_length in Hi. rewrite linspace_nth by exact Hi.
    rewrite (nth_indep _ 0 (sample pr N 0)) by (rewrite map_length, seq_length; exact Hi). rewrite map_nth, seq_nth by exact Hi.
    rewrite <- gx_sample by exact HN. reflexivity. }
  rewrite G. apply map_ext. intros j. apply G.
Qed.

Lemma disk_sample pr N i j : (2 <= N)%nat -> 0 < pr -> (i < N)%nat -> (j < N)%nat ->
  diskb N i j = true <-> sample pr N i ^ 2 + sample pr N j ^ 2 <= pr ^ 2.
Proof.
  intros HN Hp Hi Hj. unfold diskb.
  assert (G : forall k, (k < N)%nat -> nth k (linspace (-1) 1 N) 0 = sample 1 N k).
  { intros k Hk. rewrite linspace_nth by exact Hk. rewrite <- gx_sample by exact HN. unfold gx. replace (- (1)) with (-1) by lra. reflexivity. }
  rewrite !G by assumption.
  assert (Sc : forall k, sample pr N k = pr * sample 1 N k).
  { intros k. unfold sample. assert (1 < INR N) by (apply (lt_INR 1); lia). field. lra. }
  rewrite !Sc. set (s := sample 1 N i). set (t := sample 1 N j).
  replace ((pr * s) ^ 2 + (pr * t) ^ 2) with (pr ^ 2 * (s ^ 2 + t ^ 2)) by ring.
  assert (Hq : 0 < pr ^ 2) by (apply pow_lt, Hp).
  destruct (Rle_dec _ 1) as [H|H]; (split; [intros X; try discriminate|intros X; try reflexivity]).
  - rewrite <- (Rmult_1_r (pr ^ 2)) at 2. apply Rmult_le_compat_l; lra.
  - exfalso. apply H. apply (Rmult_le_reg_l (pr ^ 2)); lra.
Qed.

Section Ruze.
Variables (illum : list R -> R -> res (R -> R -> R)) (tel : telgeo) (I : list R) (wavel a : R) (N n : nat).
Hypothesis Hpr : 0 < tel_pr tel.
Hypothesis Ha : 0 < a.
Hypothesis HI : illum I (tel_pr tel) = Ok (fun _ _ => a).
Hypothesis HB : forall x y, block_dist tel x y = if Rle_dec (x ^ 2 + y ^ 2) (tel_pr tel ^ 2) then 1 else 0.
Hypothesis H0 : forall x y, opd_func tel x y 0 = 0.
Let pr := tel_pr tel.
Let w x y := block_dist tel x y * a.

Lemma disk_over W (f : R -> R) : (2 <= N)%nat ->
  over_samples (pr * 1) N (fun x y => w x y * f (pixel W pr x y)) =
  a * Rsum N (fun j => Rsum N (fun i => if diskb N i j then f (pixel W pr (sample pr N i) (sample pr N j)) else 0)).
Proof.
  intros HN. unfold over_samples. rewrite <- Rsum_scal. apply Rsum_ext. intros j Hj. rewrite <- Rsum_scal. apply Rsum_ext. intros i Hi.
  rewrite Rmult_1_r. unfold w. rewrite HB. pose proof (disk_sample pr N i j HN Hpr Hi Hj) as D.
  destruct (Rle_dec _ _) as [X|X]; destruct (diskb N i j); try ring; [destruct D as [_ D]; specialize (D X); discriminate|exfalso; apply X, D; reflexivity].
Qed.

Lemma ruze_kept K u v F u0 v0 F0 x y phi r e P1 P2 : (2 * length K = (n + 1) * (n + 2))%nat ->
  radiation_pattern illum tel I K 0 wavel N 1 = Ok (u, v, F) ->
  radiation_pattern illum tel I (repeat 0 (length K)) 0 wavel N 1 = Ok (u0, v0, F0) ->
  phase K (tel_pr tel) true true N = Ok (x, y, phi) ->
  rms_circ (map2d Fin phi) = Ok (Fin r, P1) -> e_rs_circ (map2d Fin phi) = Ok (Fin e, P2) ->
  let P0 := Cmod (at2 F0 (N / 2) (N / 2)) ^ 2 in
  0 < P0 /\ 1 - r ^ 2 <= e <= 1 /\ 1 - r ^ 2 <= Cmod (at2 F (N / 2) (N / 2)) ^ 2 / P0 <= 1.
Proof.
  intros HK E E0 Ep Er Ee P0. destruct (rad_inv _ _ _ _ _ _ _ _ _ _ _ E) as (HN & _).
  destruct (phase_inv _ _ _ _ _ _ _ _ Ep) as (K' & W & EK & EW & _ & _ & Ephi). cbn in EK. injection EK as <-.
  destruct (wavefront_series K n HK) as (W' & EW' & HWs). rewrite EW in EW'. injection EW' as <-.
  rewrite Ephi in Er, Ee. fold pr in Er, Ee. rewrite pixel_map_grid in Er, Ee by exact HN.
  assert (GM : map2d Fin (grid N (fun j i => pixel W pr (sample pr N i) (sample pr N j))) = grid N (fun j i => Fin (pixel W pr (sample pr N i) (sample pr N j)))).
  { unfold map2d, grid. rewrite map_map. apply map_ext. intros j. rewrite map_map. reflexivity. }
  rewrite GM in Er, Ee.
  destruct (rms_circ_num N (fun j i => Fin (pixel W pr (sample pr N i) (sample pr N j)))) as (Q & Eq). { intros; split; discriminate. }
  cbv zeta in Eq. rewrite Er in Eq.
  rewrite (e_rs_circ_eq _ _ _ Er) in Ee. cbn [nexp_negsq] in Ee. injection Ee as Ee _.
  set (cnt := Rsum N (fun j => Rsum N (fun i => if diskb N i j then 1 else 0))) in Eq.
  set (sq := Rsum N (fun j => Rsum N (fun i => if diskb N i j then pixel W pr (sample pr N i) (sample pr N j) ^ 2 else 0))) in Eq.
  destruct (Req_EM_T cnt 0) as [Z|Z]; [discriminate|]. injection Eq as Er' _.
  assert (Hc : 0 < cnt).
  { assert (0 <= cnt); [|lra]. unfold cnt. apply Rsum_nonneg. intros j _. apply Rsum_nonneg. intros i _. destruct (diskb N i j); lra. }
  assert (Hs : 0 <= sq).
  { unfold sq. apply Rsum_nonneg. intros j _. apply Rsum_nonneg. intros i _. destruct (diskb N i j); [apply pow2_ge_0|lra]. }
  assert (R2 : r ^ 2 = sq / cnt). { rewrite Er'. apply pow2_sqrt. apply Rmult_le_pos; [exact Hs|]. left. apply Rinv_0_lt_compat, Hc. }
  assert (HW : forall x y, 0 <= w x y). { intros X Y. unfold w. rewrite HB. destruct (Rle_dec _ _); lra. }
  assert (OW : over_samples (pr * 1) N w = a * cnt).
  { rewrite (over_ext _ _ w (fun x y => w x y * (fun _ => 1) (pixel W pr x y))) by (intros; ring). rewrite (disk_over W (fun _ => 1)) by exact HN. reflexivity. }
  assert (HP0 : P0 = (a * cnt) ^ 2).
  { destruct (gain_api illum tel I K 0 wavel N 1 n (fun _ _ => a) u v F u0 v0 F0 HK HI HW H0 E E0) as (A & _). fold P0 in A. rewrite A. fold pr. fold w. rewrite OW. reflexivity. }
  assert (Hac : 0 < a * cnt) by (apply Rmult_lt_0_compat; assumption).
  assert (P0p : 0 < P0) by (rewrite HP0; apply pow_lt; exact Hac).
  split; [exact P0p|]. split.
  - change (exp (- r ^ 2) = e) in Ee. rewrite <- Ee. split; [pose proof (exp_ineq1_le (- r ^ 2)); lra|]. apply exp_le_1. nra.
  - destruct (gain_ratio illum tel I K 0 wavel N 1 n (fun _ _ => a) u v F u0 v0 F0 HK HI HW H0 E E0 P0p) as (A & B). fold P0 in A, B. split; [|exact B].
    eapply Rle_trans; [|exact A]. apply Rplus_le_compat_l, Ropp_le_contravar.
    eapply Rle_trans; [apply variance_mean_square; fold pr; fold w; rewrite OW; exact Hac|]. right.
    unfold weighted_mean. fold pr. fold w. rewrite OW, R2.
    change (over_samples (pr * 1) N (fun x y => w x y * aperture_phase tel n K 0 wavel x y ^ 2) / (a * cnt) = sq / cnt).
    rewrite (over_ext (pr * 1) N (fun x y => w x y * aperture_phase tel n K 0 wavel x y ^ 2) (fun x y => w x y * (fun p => p ^ 2) (pixel W pr x y))).
    + rewrite (disk_over W (fun p => p ^ 2)) by exact HN. fold sq. field. lra.
    + intros X Y. unfold w. rewrite HB. destruct (Rle_dec _ _) as [D|D]; [|ring]. f_equal. unfold aperture_phase, pixel. rewrite H0, HWs.
      apply Rltb_false in D. fold pr in D. rewrite D. fold pr. change (fun (i : nat) (l : BinNums.Z) => nth (coeff_pos i l) K 0) with (coeff_of K).
      replace (0 / wavel) with 0 by (unfold Rdiv; ring). ring.
Qed.

(** With or without the constant term. *)
Lemma ruze_api K piston u v F u0 v0 F0 x y phi r e P1 P2 : (2 * length K = (n + 1) * (n + 2))%nat ->
  radiation_pattern illum tel I K 0 wavel N 1 = Ok (u, v, F) ->
  radiation_pattern illum tel I (repeat 0 (length K)) 0 wavel N 1 = Ok (u0, v0, F0) ->
  phase K (tel_pr tel) piston true N = Ok (x, y, phi) ->
  rms_circ (map2d Fin phi) = Ok (Fin r, P1) -> e_rs_circ (map2d Fin phi) = Ok (Fin e, P2) ->
  let P0 := Cmod (at2 F0 (N / 2) (N / 2)) ^ 2 in
  0 < P0 /\ 1 - r ^ 2 <= e <= 1 /\ 1 - r ^ 2 <= Cmod (at2 F (N / 2) (N / 2)) ^ 2 / P0 <= 1.
Proof.
  intros HK E E0 Ep Er Ee. destruct piston; [apply (ruze_kept K u v F u0 v0 F0 x y phi r e P1 P2 HK E E0 Ep Er Ee)|].
  destruct K as [|k K]; [cbn in HK; nia|].
  destruct (rad_inv _ _ _ _ _ _ _ _ _ _ _ E) as (HN & _).
  assert (HK' : (2 * length (0%R :: K) = (n + 1) * (n + 2))%nat) by exact HK.
  destruct (rad_some illum tel I (0 :: K) 0 wavel N 1 n _ HN HK' HI) as (u' & v' & F' & E').
  destruct (piston_samples illum tel I k 0 K 0 wavel N 1 u v F u' v' F' E E') as (_ & _ & S').
  rewrite <- S'.
  apply (ruze_kept (0 :: K) u' v' F' u0 v0 F0 x y phi r e P1 P2 HK' E' E0); [|exact Er|exact Ee].
  rewrite phase_unfold in Ep |- *. cbn in Ep |- *. exact Ep.
Qed.
End Ruze.

(** Helpers for the examples. *)
Lemma opd_zero Fp F x y : 0 < Fp -> 0 < F -> opd_manual Fp F x y 0 = 0.
Proof. intros H1 H2. destruct (opd_api Fp F H1 H2) as (f & E & _). rewrite E. ring. Qed.
Lemma Rsum_member n f k : (forall i, (i < n)%nat -> 0 <= f i) -> (k < n)%nat -> f k <= Rsum n f.
Proof.
  revert k. induction n as [|n IH]; intros k H Hk; [lia|]. rewrite Rsum_Sr. destruct (Nat.eq_dec k n) as [->|N0].
  - assert (0 <= Rsum n f) by (apply Rsum_nonneg; intros; apply H; lia). lra.
  - assert (f k <= Rsum n f) by (apply IH; [intros; apply H; lia|lia]). specialize (H n ltac:(lia)). lra.
Qed.
Lemma over_pos box N f j i : (forall x y, 0 <= f x y) -> (j < N)%nat -> (i < N)%nat -> 0 < f (sample box N i) (sample box N j) -> 0 < over_samples box N f.
Proof.
  intros H Hj Hi P. unfold over_samples. eapply Rlt_le_trans; [exact P|].
  eapply Rle_trans; [apply (Rsum_member N (fun i => f (sample box N i) (sample box N j)) i); [intros; apply H|exact Hi]|].
  apply (Rsum_member N (fun j => Rsum N (fun i => f (sample box N i) (sample box N j))) j); [|exact Hj]. intros. apply Rsum_nonneg. intros. apply H.
Qed.
Lemma block_outside pr sr a L x y : pr ^ 2 < x ^ 2 + y ^ 2 -> block_manual pr sr a L x y = 0.
Proof. intros H. destruct (block_manual_iff pr sr a L x y) as ([Z|O] & B); [exact Z|]. apply B in O as (In & _). unfold annulus in In. lra. Qed.
Lemma ruze_some K n pr piston N : (2 * length K = (n + 1) * (n + 2))%nat -> 0 < pr -> (2 <= N)%nat -> forall j i, (j < N)%nat -> (i < N)%nat ->
  sample pr N i ^ 2 + sample pr N j ^ 2 <= pr ^ 2 ->
  exists x y phi r e P1 P2, phase K pr piston true N = Ok (x, y, phi) /\ rms_circ (map2d Fin phi) = Ok (Fin r, P1) /\ e_rs_circ (map2d Fin phi) = Ok (Fin e, P2).
Proof.
  intros HK Hp HN j i Hj Hi D.
  assert (X : exists x y phi, phase K pr piston true N = Ok (x, y, phi)).
  { rewrite phase_unfold. destruct (phase_coeffs_ok K piston true) as (K' & E & HL & _); [nia|discriminate|]. rewrite E. cbn [bind]. rewrite phase_map_unfold.
    destruct (wavefront_series K' n) as (W & EW & _); [rewrite HL; exact HK|]. rewrite EW. cbn [bind]. eexists _, _, _. reflexivity. }
  destruct X as (x & y & phi & E). destruct (phase_inv _ _ _ _ _ _ _ _ E) as (K' & W & _ & _ & _ & _ & Ephi).
  exists x, y, phi. rewrite Ephi, pixel_map_grid by exact HN.
  replace (map2d Fin (grid N (fun j i => pixel W pr (sample pr N i) (sample pr N j)))) with (grid N (fun j i => Fin (pixel W pr (sample pr N i) (sample pr N j)))).
  2:{ unfold map2d, grid. rewrite map_map. apply map_ext. intros j'. rewrite map_map. reflexivity. }
  destruct (rms_circ_num N (fun j i => Fin (pixel W pr (sample pr N i) (sample pr N j)))) as (Q & Eq). { intros; split; discriminate. }
  cbv zeta in Eq. destruct (Req_EM_T _ 0) as [Z|Z] in Eq.
  - exfalso. assert (P : 0 < Rsum N (fun j => Rsum N (fun i => if diskb N i j then 1 else 0))); [|rewrite Z in P; lra].
    apply Rlt_le_trans with 1; [lra|]. apply Rle_trans with (if diskb N i j then 1 else 0); [rewrite (proj2 (disk_sample pr N i j HN Hp Hi Hj) D); lra|].
    eapply Rle_trans; [apply (Rsum_member N (fun i => if diskb N i j then 1 else 0) i); [intros k _; destruct (diskb N k j); lra|exact Hi]|].
    apply (Rsum_member N (fun j => Rsum N (fun i => if diskb N i j then 1 else 0)) j); [|exact Hj]. intros k _. apply Rsum_nonneg. intros m _. destruct (diskb N m k); lra.
  - eexists _, _, Q, Q. split; [rewrite E, Ephi, pixel_map_grid by exact HN; reflexivity|]. split; [exact Eq|]. rewrite (e_rs_circ_eq _ _ _ Eq). reflexivity.
Qed.
