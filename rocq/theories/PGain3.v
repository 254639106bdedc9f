(** Small changes of the coefficients and of the radial offset change the pattern little (C99). *)
From Coq Require Import List ZArith Lia Lra.
From Verif Require Import PyBase PyLib Sums Num MMath MAperture MTel MRad SZernike SRad STel SGain PIllum PTel PAper PFft PRad PRad2 PFar PRms PPhase PPhase2 PWave PGain PGain2.
From Coquelicot Require Import Complex.
Import ListNotations.
Open Scope R_scope.

(** A chord is at most its arc. *)
Lemma cis_chord a b : Cmod (Cminus (cis a) (cis b)) <= Rabs (a - b).
Proof.
  unfold Cmod. rewrite <- (sqrt_Rsqr_abs (a - b)). apply sqrt_le_1_alt. unfold Rsqr, Cminus, Cplus, Copp, cis. cbn [fst snd].
  pose proof (cos_lower (a - b)) as H. rewrite cos_minus in H. pose proof (sin2_cos2 a) as A. pose proof (sin2_cos2 b) as B. unfold Rsqr in A, B. nra.
Qed.

Lemma Csum_minus n f g : Cminus (Csum n f) (Csum n g) = Csum n (fun i => Cminus (f i) (g i)).
Proof. induction n as [|n IH]; cbn [Csum]; [unfold Cminus; ring|]. rewrite <- IH. unfold Cminus. ring. Qed.

Lemma centred_diff E E' box N q p : (2 <= N)%nat ->
  Cmod (Cminus (centred E' box N q p) (centred E box N q p)) <= over_samples box N (fun x y => Cmod (Cminus (E' x y) (E x y))).
Proof.
  intros HN. unfold centred. rewrite Csum_minus. eapply Rle_trans; [apply Cmod_Csum|]. unfold over_samples. apply Rsum_le. intros j Hj.
  rewrite Csum_minus. eapply Rle_trans; [apply Cmod_Csum|]. apply Rsum_le. intros i Hi. right. rewrite !gx_sample by exact HN.
  set (c := cis _). replace (Cminus _ _) with (Cmult (Cminus (E' (sample box N i) (sample box N j)) (E (sample box N i) (sample box N j))) c) by ring.
  unfold c. rewrite Cmod_mult, cis_mod, Rmult_1_r. reflexivity.
Qed.

Lemma map2_comb K K' : map2 (fun k k' => 1 * k + -1 * k') K K' = map2 Rminus K K'.
Proof. revert K'. induction K as [|k K IH]; intros [|k' K']; cbn; try reflexivity. f_equal; [ring|apply IH]. Qed.

Lemma series_diff_bound K K' n rho t : (2 * length K = (n + 1) * (n + 2))%nat -> length K' = length K -> -1 <= rho <= 1 ->
  Rabs (zernike_series n (coeff_of K') rho t - zernike_series n (coeff_of K) rho t) <= py_sum (map Rabs (map2 Rminus K' K)).
Proof.
  intros HK HL Hr. destruct (wavefront_series K n HK) as (W & EW & HW).
  destruct (wavefront_series K' n) as (W' & EW' & HW'). { rewrite HL; exact HK. }
  destruct (wavefront_linear K' K 1 (-1) W' W (eq_sym HL) EW' EW) as (V & EV & HV). rewrite map2_comb in EV.
  pose proof (wavefront_bound _ V rho t EV Hr) as B. rewrite HV, HW, HW' in B.
  replace (zernike_series n (coeff_of K') rho t - zernike_series n (coeff_of K) rho t) with
    (1 * zernike_series n (coeff_of K') rho t + -1 * zernike_series n (coeff_of K) rho t) by ring. exact B.
Qed.

Lemma stable_api illum tel I K K' d_z d_z' wavel N bf n Ea D u v F u' v' F' : 0 < tel_pr tel -> 0 < wavel ->
  (2 * length K = (n + 1) * (n + 2))%nat -> length K' = length K -> illum I (tel_pr tel) = Ok Ea ->
  (forall x y, tel_pr tel ^ 2 < x ^ 2 + y ^ 2 -> block_dist tel x y = 0) ->
  (forall x y, x ^ 2 + y ^ 2 <= tel_pr tel ^ 2 -> Rabs (opd_func tel x y d_z' - opd_func tel x y d_z) <= D) ->
  radiation_pattern illum tel I K d_z wavel N bf = Ok (u, v, F) ->
  radiation_pattern illum tel I K' d_z' wavel N bf = Ok (u', v', F') ->
  u' = u /\ v' = v /\ forall j i, (j < N)%nat -> (i < N)%nat ->
  Cmod (Cminus (at2 F' j i) (at2 F j i)) <=
  2 * PI * (py_sum (map Rabs (map2 Rminus K' K)) + D / wavel) * over_samples (tel_pr tel * bf) N (fun x y => Rabs (block_dist tel x y * Ea x y)).
Proof.
  intros Hp Hw HK HL HI HB HD E E'.
  destruct (rad_inv _ _ _ _ _ _ _ _ _ _ _ E) as (HN & A & HA & -> & -> & ->).
  destruct (rad_inv _ _ _ _ _ _ _ _ _ _ _ E') as (_ & A' & HA' & -> & -> & ->).
  split; [reflexivity|]. split; [reflexivity|]. intros j i Hj Hi. rewrite !rad_sample by assumption.
  destruct (aperture_ok illum tel I K d_z wavel n Ea HK HI) as (A2 & HA2 & V). rewrite HA in HA2. injection HA2 as <-.
  destruct (aperture_ok illum tel I K' d_z' wavel n Ea) as (A2 & HA2 & V'); [rewrite HL; exact HK|exact HI|]. rewrite HA' in HA2. injection HA2 as <-.
  eapply Rle_trans; [apply centred_diff, HN|]. rewrite <- over_scal. apply over_le. intros x y. rewrite V, V'.
  match goal with |- Cmod (Cminus (Cmult ?b (cis ?p)) (Cmult _ (cis ?q))) <= _ => set (P := p); set (Q := q);
    replace (Cminus (Cmult b (cis P)) (Cmult b (cis Q))) with (Cmult b (Cminus (cis P) (cis Q))) by ring end.
  rewrite Cmod_mult, Cmod_R, (Rmult_comm (Rabs _)).
  destruct (Rle_dec (x ^ 2 + y ^ 2) (tel_pr tel ^ 2)) as [In|Out].
  - apply Rmult_le_compat_r; [apply Rabs_pos|]. eapply Rle_trans; [apply cis_chord|]. unfold P, Q.
    rewrite <- Rmult_minus_distr_l, Rabs_mult, (Rabs_right (2 * PI)) by (pose proof PI_RGT_0; lra).
    apply Rmult_le_compat_l; [pose proof PI_RGT_0; lra|].
    set (Z' := zernike_series _ _ _ _). set (Z := zernike_series n (coeff_of K) _ _).
    replace (Z' + opd_func tel x y d_z' / wavel - (Z + opd_func tel x y d_z / wavel)) with ((Z' - Z) + (opd_func tel x y d_z' - opd_func tel x y d_z) / wavel) by (field; lra).
    eapply Rle_trans; [apply Rabs_triang|]. apply Rplus_le_compat.
    + apply series_diff_bound; [exact HK|exact HL|].
      assert (H2 : sqrt (x ^ 2 + y ^ 2) <= tel_pr tel). { rewrite <- (sqrt_pow2 (tel_pr tel)) by lra. apply sqrt_le_1_alt, In. }
      pose proof (sqrt_pos (x ^ 2 + y ^ 2)).
      split; [apply Rle_trans with 0; [lra|apply Rmult_le_pos; [assumption|left; apply Rinv_0_lt_compat, Hp]]|].
      apply (Rmult_le_reg_r (tel_pr tel)); [exact Hp|]. unfold Rdiv. rewrite Rmult_assoc, Rinv_l by lra. lra.
    + unfold Rdiv. rewrite Rabs_mult. rewrite (Rabs_right (/ wavel)) by (apply Rle_ge; left; apply Rinv_0_lt_compat, Hw).
      apply Rmult_le_compat_r; [left; apply Rinv_0_lt_compat, Hw|]. apply HD, In.
  - rewrite HB by lra. rewrite Rmult_0_l, Rabs_R0, !Rmult_0_r. lra.
Qed.

(** The power: the difference of two squares. *)
Lemma power_stable (z z' : C) d T : Cmod z <= T -> Cmod z' <= T -> Cmod (Cminus z' z) <= d -> Rabs (Cmod z' ^ 2 - Cmod z ^ 2) <= 2 * T * d.
Proof.
  intros A B D. pose proof (Cmod_ge_0 z). pose proof (Cmod_ge_0 z'). pose proof (Cmod_ge_0 (Cminus z' z)).
  assert (L : Rabs (Cmod z' - Cmod z) <= d).
  { apply Rabs_le. split.
    - pose proof (Cmod_triangle z' (Copp (Cminus z' z))) as X. rewrite Cmod_opp in X. replace (Cplus z' (Copp (Cminus z' z))) with z in X by ring. lra.
    - pose proof (Cmod_triangle z (Cminus z' z)) as X. replace (Cplus z (Cminus z' z)) with z' in X by ring. lra. }
  replace (Cmod z' ^ 2 - Cmod z ^ 2) with ((Cmod z' + Cmod z) * (Cmod z' - Cmod z)) by ring. rewrite Rabs_mult, (Rabs_right (Cmod z' + Cmod z)) by lra.
  apply Rmult_le_compat; [lra|apply Rabs_pos|lra|exact L].
Qed.

Lemma opd_manual_lip Fp F x y d d' : 0 < Fp -> 0 < F -> Rabs (opd_manual Fp F x y d' - opd_manual Fp F x y d) <= 2 * Rabs (d' - d).
Proof.
  intros H1 H2. destruct (opd_api Fp F H1 H2) as (f & E & _ & _ & B & _). rewrite !E.
  replace (d' * f (x ^ 2 + y ^ 2) - d * f (x ^ 2 + y ^ 2)) with (f (x ^ 2 + y ^ 2) * (d' - d)) by ring. rewrite Rabs_mult.
  apply Rmult_le_compat_r; [apply Rabs_pos|]. destruct (B (x ^ 2 + y ^ 2)); [apply dist2_nonneg|]. apply Rabs_le. lra.
Qed.

Lemma power_stable_api illum tel I K K' d_z d_z' wavel N bf n Ea D u v F u' v' F' : 0 < tel_pr tel -> 0 < wavel ->
  (2 * length K = (n + 1) * (n + 2))%nat -> length K' = length K -> illum I (tel_pr tel) = Ok Ea ->
  (forall x y, tel_pr tel ^ 2 < x ^ 2 + y ^ 2 -> block_dist tel x y = 0) ->
  (forall x y, x ^ 2 + y ^ 2 <= tel_pr tel ^ 2 -> Rabs (opd_func tel x y d_z' - opd_func tel x y d_z) <= D) ->
  radiation_pattern illum tel I K d_z wavel N bf = Ok (u, v, F) ->
  radiation_pattern illum tel I K' d_z' wavel N bf = Ok (u', v', F') ->
  forall j i, (j < N)%nat -> (i < N)%nat ->
  Rabs (Cmod (at2 F' j i) ^ 2 - Cmod (at2 F j i) ^ 2) <=
  4 * PI * (py_sum (map Rabs (map2 Rminus K' K)) + D / wavel) * over_samples (tel_pr tel * bf) N (fun x y => Rabs (block_dist tel x y * Ea x y)) ^ 2.
Proof.
  intros Hp Hw HK HL HI HB HD E E' j i Hj Hi.
  destruct (gain_field illum tel I K d_z wavel N bf n Ea HK HI u v F E) as (_ & B).
  destruct (gain_field illum tel I K' d_z' wavel N bf n Ea ltac:(rewrite HL; exact HK) HI u' v' F' E') as (_ & B').
  destruct (stable_api illum tel I K K' d_z d_z' wavel N bf n Ea D u v F u' v' F' Hp Hw HK HL HI HB HD E E') as (_ & _ & S').
  specialize (B j i Hj Hi). specialize (B' j i Hj Hi). specialize (S' j i Hj Hi).
  eapply Rle_trans; [apply (power_stable _ _ _ _ B B' S')|]. right. ring.
Qed.
