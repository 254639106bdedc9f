(** Property theorems C98-C100: what phase errors, small changes and reflections do to the pattern. *)
From Coq Require Import List ZArith Lia Lra.
From Verif Require Import PyBase PyLib Sums Num MMath MAperture MTel MRad SMath SZernike SRad STel SGain SMirror PIllum PTel PAper PRad PPhase PGain PGain2 PGain3 PMirror.
From Coquelicot Require Import Complex.
Import ListNotations.
Open Scope R_scope.

(** C98. Relative to the telescope without aberrations (all coefficients zero, in focus): no sample of the pattern
    exceeds the on-axis power, and the on-axis power is lowered by at most the variance of the phase. *)
Theorem C98_peak illum tel I K d_z wavel N bf n Ea u v F u0 v0 F0 : (2 * length K = (n + 1) * (n + 2))%nat -> illum I (tel_pr tel) = Ok Ea ->
  (forall x y, 0 <= block_dist tel x y * Ea x y) -> (forall x y, opd_func tel x y 0 = 0) ->
  radiation_pattern illum tel I K d_z wavel N bf = Ok (u, v, F) ->
  radiation_pattern illum tel I (repeat 0 (length K)) 0 wavel N bf = Ok (u0, v0, F0) ->
  let P0 := Cmod (at2 F0 (N / 2) (N / 2)) ^ 2 in
  P0 = over_samples (tel_pr tel * bf) N (fun x y => block_dist tel x y * Ea x y) ^ 2 /\
  forall j i, (j < N)%nat -> (i < N)%nat -> Cmod (at2 F j i) ^ 2 <= P0.
Proof. exact (fun a b c d e f => let H := gain_api illum tel I K d_z wavel N bf n Ea u v F u0 v0 F0 a b c d e f in conj (proj1 H) (proj1 (proj2 H))). Qed.
Print Assumptions C98_peak.
Theorem C98_loss illum tel I K d_z wavel N bf n Ea u v F u0 v0 F0 : (2 * length K = (n + 1) * (n + 2))%nat -> illum I (tel_pr tel) = Ok Ea ->
  (forall x y, 0 <= block_dist tel x y * Ea x y) -> (forall x y, opd_func tel x y 0 = 0) ->
  radiation_pattern illum tel I K d_z wavel N bf = Ok (u, v, F) ->
  radiation_pattern illum tel I (repeat 0 (length K)) 0 wavel N bf = Ok (u0, v0, F0) ->
  let P0 := Cmod (at2 F0 (N / 2) (N / 2)) ^ 2 in 0 < P0 ->
  1 - weighted_variance (tel_pr tel * bf) N (fun x y => block_dist tel x y * Ea x y) (aperture_phase tel n K d_z wavel)
  <= Cmod (at2 F (N / 2) (N / 2)) ^ 2 / P0 <= 1.
Proof. exact (gain_ratio illum tel I K d_z wavel N bf n Ea u v F u0 v0 F0). Qed.
Print Assumptions C98_loss.
(** The hypotheses hold for every telescope made with block_manual and opd_manual and a centred parabolic illumination. *)
Theorem C98_manual pr sr a L Fp Ff i_amp c_dB q Ea x y : 0 < pr -> 0 < Fp -> 0 < Ff -> 0 < i_amp -> c_dB < 0 -> 0 < q ->
  illum_parabolic [i_amp; c_dB; q; 0; 0] pr = Ok Ea ->
  0 <= block_manual pr sr a L x y * Ea x y /\ opd_manual Fp Ff x y 0 = 0.
Proof. exact (fun a1 b c d e f g => conj (dish_manual pr sr a L i_amp c_dB q Ea x y a1 d e f g) (opd_zero Fp Ff x y b c)). Qed.
Print Assumptions C98_manual.
(** Ruze's efficiency e_rs(phase, circ=True) of the phase map, and the loss of the uniformly illuminated dish it stands for,
    both lie between 1 - rms^2 and 1; so they differ by at most rms^2.  The constant term may be dropped. *)
Theorem C98_ruze illum tel I wavel a N n K piston u v F u0 v0 F0 x y phi r e P1 P2 : 0 < tel_pr tel -> 0 < a ->
  illum I (tel_pr tel) = Ok (fun _ _ => a) ->
  (forall x y, block_dist tel x y = if Rle_dec (x ^ 2 + y ^ 2) (tel_pr tel ^ 2) then 1 else 0) -> (forall x y, opd_func tel x y 0 = 0) ->
  (2 * length K = (n + 1) * (n + 2))%nat ->
  radiation_pattern illum tel I K 0 wavel N 1 = Ok (u, v, F) ->
  radiation_pattern illum tel I (repeat 0 (length K)) 0 wavel N 1 = Ok (u0, v0, F0) ->
  phase K (tel_pr tel) piston true N = Ok (x, y, phi) ->
  rms_circ (map2d Fin phi) = Ok (Fin r, P1) -> e_rs_circ (map2d Fin phi) = Ok (Fin e, P2) ->
  let P0 := Cmod (at2 F0 (N / 2) (N / 2)) ^ 2 in
  0 < P0 /\ 1 - r ^ 2 <= e <= 1 /\ 1 - r ^ 2 <= Cmod (at2 F (N / 2) (N / 2)) ^ 2 / P0 <= 1.
Proof. exact (fun a1 a2 a3 a4 a5 => ruze_api illum tel I wavel a N n a1 a2 a3 a4 a5 K piston u v F u0 v0 F0 x y phi r e P1 P2). Qed.
Print Assumptions C98_ruze.

Definition tel98 : telgeo := {| block_dist := block_manual 50 3 1 20; opd_func := opd_manual 30 300; tel_pr := 50 |}.
Example C98_nonvacuous : exists Ea u v F u0 v0 F0, illum_parabolic [1; -14; 2; 0; 0] (tel_pr tel98) = Ok Ea /\
  (forall x y, 0 <= block_dist tel98 x y * Ea x y) /\ (forall x y, opd_func tel98 x y 0 = 0) /\
  radiation_pattern illum_parabolic tel98 [1; -14; 2; 0; 0] [1; 2; 3; 4; 5; 6] (1 / 50) (1 / 100) 256 5 = Ok (u, v, F) /\
  radiation_pattern illum_parabolic tel98 [1; -14; 2; 0; 0] (repeat 0 6) 0 (1 / 100) 256 5 = Ok (u0, v0, F0) /\
  0 < Cmod (at2 F0 (256 / 2) (256 / 2)) ^ 2.
Proof.
  destruct (proj1 (par_arity [1; -14; 2; 0; 0] (tel_pr tel98)) eq_refl) as [Ea EI].
  destruct (rad_some illum_parabolic tel98 [1; -14; 2; 0; 0] [1; 2; 3; 4; 5; 6] (1 / 50) (1 / 100) 256 5 2 Ea ltac:(lia) eq_refl EI) as (u & v & F & E).
  destruct (rad_some illum_parabolic tel98 [1; -14; 2; 0; 0] (repeat 0 6) 0 (1 / 100) 256 5 2 Ea ltac:(lia) eq_refl EI) as (u0 & v0 & F0 & E0).
  assert (M : forall x y, 0 <= block_manual 50 3 1 20 x y * Ea x y /\ opd_manual 30 300 x y 0 = 0).
  { intros x y. apply (C98_manual 50 3 1 20 30 300 1 (-14) 2 Ea x y); try lra. exact EI. }
  exists Ea, u, v, F, u0, v0, F0. split; [exact EI|]. split; [intros; apply M|]. split; [intros; apply M|]. split; [exact E|]. split; [exact E0|].
  destruct (C98_peak illum_parabolic tel98 [1; -14; 2; 0; 0] [1; 2; 3; 4; 5; 6] (1 / 50) (1 / 100) 256 5 2 Ea u v F u0 v0 F0 eq_refl EI (fun x y => proj1 (M x y)) (fun x y => proj2 (M x y)) E E0) as [P _].
  rewrite P. apply pow_lt. apply (over_pos _ _ _ 140 140); [intros; apply M|lia|lia|].
  cbn [tel_pr tel98 block_dist].
  assert (S1 : sample (50 * 5) 256 140 = 1250 / 51). { unfold sample. rewrite !INR_IZR_INZ. cbn [Z.of_nat Pos.of_succ_nat Pos.succ]. field. }
  rewrite S1. destruct (block_manual_iff 50 3 1 20 (1250 / 51) (1250 / 51)) as (_ & B). destruct B as [_ B].
  rewrite B; [|split; [unfold annulus; lra|unfold legs; rewrite !Rabs_right by lra; lra]].
  destruct (par_api 1 (-14) 2 0 0 50 Ea ltac:(lra) ltac:(lra) ltac:(lra) ltac:(lra) EI) as (_ & _ & _ & D).
  destruct (D (1250 / 51) (1250 / 51)) as [D1 _]; [lra|]. pose proof (c_dB_pos (-14)). lra.
Qed.
Definition disk98 : telgeo := {| block_dist := fun x y => if Rle_dec (x ^ 2 + y ^ 2) (50 ^ 2) then 1 else 0; opd_func := opd_manual 30 300; tel_pr := 50 |}.
Example C98_ruze_nonvacuous : exists u v F u0 v0 F0 x y phi r e P1 P2,
  radiation_pattern (fun _ _ => Ok (fun _ _ => 2)) disk98 [] [1; 2; 3] 0 (1 / 100) 257 1 = Ok (u, v, F) /\
  radiation_pattern (fun _ _ => Ok (fun _ _ => 2)) disk98 [] (repeat 0 3) 0 (1 / 100) 257 1 = Ok (u0, v0, F0) /\
  phase [1; 2; 3] (tel_pr disk98) false true 257 = Ok (x, y, phi) /\
  rms_circ (map2d Fin phi) = Ok (Fin r, P1) /\ e_rs_circ (map2d Fin phi) = Ok (Fin e, P2).
Proof.
  destruct (rad_some (fun _ _ => Ok (fun _ _ => 2)) disk98 [] [1; 2; 3] 0 (1 / 100) 257 1 1 (fun _ _ => 2) ltac:(lia) eq_refl eq_refl) as (u & v & F & E).
  destruct (rad_some (fun _ _ => Ok (fun _ _ => 2)) disk98 [] (repeat 0 3) 0 (1 / 100) 257 1 1 (fun _ _ => 2) ltac:(lia) eq_refl eq_refl) as (u0 & v0 & F0 & E0).
  destruct (ruze_some [1; 2; 3] 1 50 false 257 eq_refl ltac:(lra) ltac:(lia) 128 128 ltac:(lia) ltac:(lia)) as (x & y & phi & r & e & P1 & P2 & A & B & C1).
  { unfold sample. rewrite !INR_IZR_INZ. cbn [Z.of_nat Pos.of_succ_nat Pos.succ]. lra. }
  exists u, v, F, u0, v0, F0, x, y, phi, r, e, P1, P2. repeat (split; [assumption|]). assumption.
Qed.

(** C99. Changing the coefficients by K' - K and the optical path differences by at most D (metres) anywhere on the dish
    changes every sample of the pattern by at most 2 pi (sum |K' - K| + D / wavel) times the total illumination. *)
Theorem C99_field illum tel I K K' d_z d_z' wavel N bf n Ea D u v F u' v' F' : 0 < tel_pr tel -> 0 < wavel ->
  (2 * length K = (n + 1) * (n + 2))%nat -> length K' = length K -> illum I (tel_pr tel) = Ok Ea ->
  (forall x y, tel_pr tel ^ 2 < x ^ 2 + y ^ 2 -> block_dist tel x y = 0) ->
  (forall x y, x ^ 2 + y ^ 2 <= tel_pr tel ^ 2 -> Rabs (opd_func tel x y d_z' - opd_func tel x y d_z) <= D) ->
  radiation_pattern illum tel I K d_z wavel N bf = Ok (u, v, F) ->
  radiation_pattern illum tel I K' d_z' wavel N bf = Ok (u', v', F') ->
  u' = u /\ v' = v /\ forall j i, (j < N)%nat -> (i < N)%nat ->
  Cmod (Cminus (at2 F' j i) (at2 F j i)) <=
  2 * PI * (py_sum (map Rabs (map2 Rminus K' K)) + D / wavel) * over_samples (tel_pr tel * bf) N (fun x y => Rabs (block_dist tel x y * Ea x y)).
Proof. exact (stable_api illum tel I K K' d_z d_z' wavel N bf n Ea D u v F u' v' F'). Qed.
Print Assumptions C99_field.
Theorem C99_power illum tel I K K' d_z d_z' wavel N bf n Ea D u v F u' v' F' : 0 < tel_pr tel -> 0 < wavel ->
  (2 * length K = (n + 1) * (n + 2))%nat -> length K' = length K -> illum I (tel_pr tel) = Ok Ea ->
  (forall x y, tel_pr tel ^ 2 < x ^ 2 + y ^ 2 -> block_dist tel x y = 0) ->
  (forall x y, x ^ 2 + y ^ 2 <= tel_pr tel ^ 2 -> Rabs (opd_func tel x y d_z' - opd_func tel x y d_z) <= D) ->
  radiation_pattern illum tel I K d_z wavel N bf = Ok (u, v, F) ->
  radiation_pattern illum tel I K' d_z' wavel N bf = Ok (u', v', F') ->
  forall j i, (j < N)%nat -> (i < N)%nat ->
  Rabs (Cmod (at2 F' j i) ^ 2 - Cmod (at2 F j i) ^ 2) <=
  4 * PI * (py_sum (map Rabs (map2 Rminus K' K)) + D / wavel) * over_samples (tel_pr tel * bf) N (fun x y => Rabs (block_dist tel x y * Ea x y)) ^ 2.
Proof. exact (power_stable_api illum tel I K K' d_z d_z' wavel N bf n Ea D u v F u' v' F'). Qed.
Print Assumptions C99_power.
(** For block_manual and opd_manual the hypotheses hold with D = 2 |d_z' - d_z|. *)
Theorem C99_manual pr sr a L Fp Ff d d' x y : 0 < Fp -> 0 < Ff ->
  (pr ^ 2 < x ^ 2 + y ^ 2 -> block_manual pr sr a L x y = 0) /\ Rabs (opd_manual Fp Ff x y d' - opd_manual Fp Ff x y d) <= 2 * Rabs (d' - d).
Proof. exact (fun H1 H2 => conj (block_outside pr sr a L x y) (opd_manual_lip Fp Ff x y d d' H1 H2)). Qed.
Print Assumptions C99_manual.
Example C99_nonvacuous : exists Ea u v F u' v' F', illum_parabolic [1; -14; 2; 0; 0] (tel_pr tel98) = Ok Ea /\
  (forall x y, tel_pr tel98 ^ 2 < x ^ 2 + y ^ 2 -> block_dist tel98 x y = 0) /\
  (forall x y, x ^ 2 + y ^ 2 <= tel_pr tel98 ^ 2 -> Rabs (opd_func tel98 x y (1 / 50) - opd_func tel98 x y 0) <= 2 * Rabs (1 / 50 - 0)) /\
  radiation_pattern illum_parabolic tel98 [1; -14; 2; 0; 0] [1; 2; 3; 4; 5; 6] 0 (1 / 100) 256 5 = Ok (u, v, F) /\
  radiation_pattern illum_parabolic tel98 [1; -14; 2; 0; 0] [1; 2; 3; 4; 5; 7] (1 / 50) (1 / 100) 256 5 = Ok (u', v', F').
Proof.
  destruct (proj1 (par_arity [1; -14; 2; 0; 0] (tel_pr tel98)) eq_refl) as [Ea EI].
  destruct (rad_some illum_parabolic tel98 [1; -14; 2; 0; 0] [1; 2; 3; 4; 5; 6] 0 (1 / 100) 256 5 2 Ea ltac:(lia) eq_refl EI) as (u & v & F & E).
  destruct (rad_some illum_parabolic tel98 [1; -14; 2; 0; 0] [1; 2; 3; 4; 5; 7] (1 / 50) (1 / 100) 256 5 2 Ea ltac:(lia) eq_refl EI) as (u' & v' & F' & E').
  exists Ea, u, v, F, u', v', F'. split; [exact EI|]. split; [intros x y; apply (C99_manual 50 3 1 20 30 300 0 0 x y); lra|].
  split; [intros x y _; apply (C99_manual 50 3 1 20 30 300 0 (1 / 50) x y); lra|]. split; assumption.
Qed.

(** C100. Coefficients of the wavefront mirrored in either axis, or with the axes exchanged. *)
Theorem C100_wavefront n c rho t :
  zernike_series n (mirrored_y c) rho t = zernike_series n c rho (- t) /\
  zernike_series n (mirrored_x c) rho t = zernike_series n c rho (PI - t) /\
  zernike_series n (transposed c) rho t = zernike_series n c rho (PI / 2 - t).
Proof. exact (conj (series_mirror_y n c rho t) (conj (series_mirror_x n c rho t) (series_transposed n c rho t))). Qed.
Print Assumptions C100_wavefront.
(** On a telescope with the same symmetry the power pattern is mirrored (about the on-axis sample) or transposed. *)
Theorem C100_mirror_v illum tel I K K' d_z wavel N bf n Ea u v u' v' F F' : 0 < wavel -> 0 < tel_pr tel -> 0 < bf ->
  (2 * length K = (n + 1) * (n + 2))%nat -> length K' = length K -> illum I (tel_pr tel) = Ok Ea ->
  radiation_pattern illum tel I K d_z wavel N bf = Ok (u, v, F) -> radiation_pattern illum tel I K' d_z wavel N bf = Ok (u', v', F') ->
  (forall i l, (i <= n)%nat -> admissible (Z.of_nat i) l -> coeff_of K' i l = mirrored_y (coeff_of K) i l) ->
  (forall x y, block_dist tel x (- y) = block_dist tel x y) -> (forall x y, Ea x (- y) = Ea x y) ->
  (forall x y, opd_func tel x (- y) d_z = opd_func tel x y d_z) ->
  forall r r' c, (r < N)%nat -> (r' < N)%nat -> (c < N)%nat -> (r + r' = 2 * (N / 2))%nat -> Cmod (at2 F' r c) ^ 2 = Cmod (at2 F r' c) ^ 2.
Proof. exact (pattern_mirror_y illum tel I K K' d_z wavel N bf n Ea u v u' v' F F'). Qed.
Print Assumptions C100_mirror_v.
Theorem C100_mirror_u illum tel I K K' d_z wavel N bf n Ea u v u' v' F F' : 0 < wavel -> 0 < tel_pr tel -> 0 < bf ->
  (2 * length K = (n + 1) * (n + 2))%nat -> length K' = length K -> illum I (tel_pr tel) = Ok Ea ->
  radiation_pattern illum tel I K d_z wavel N bf = Ok (u, v, F) -> radiation_pattern illum tel I K' d_z wavel N bf = Ok (u', v', F') ->
  (forall i l, (i <= n)%nat -> admissible (Z.of_nat i) l -> coeff_of K' i l = mirrored_x (coeff_of K) i l) ->
  (forall x y, block_dist tel (- x) y = block_dist tel x y) -> (forall x y, Ea (- x) y = Ea x y) ->
  (forall x y, opd_func tel (- x) y d_z = opd_func tel x y d_z) ->
  forall r c c', (r < N)%nat -> (c < N)%nat -> (c' < N)%nat -> (c + c' = 2 * (N / 2))%nat -> Cmod (at2 F' r c) ^ 2 = Cmod (at2 F r c') ^ 2.
Proof. exact (pattern_mirror_x illum tel I K K' d_z wavel N bf n Ea u v u' v' F F'). Qed.
Print Assumptions C100_mirror_u.
Theorem C100_transposed illum tel I K K' d_z wavel N bf n Ea u v u' v' F F' : 0 < wavel -> 0 < tel_pr tel -> 0 < bf ->
  (2 * length K = (n + 1) * (n + 2))%nat -> length K' = length K -> illum I (tel_pr tel) = Ok Ea ->
  radiation_pattern illum tel I K d_z wavel N bf = Ok (u, v, F) -> radiation_pattern illum tel I K' d_z wavel N bf = Ok (u', v', F') ->
  (forall i l, (i <= n)%nat -> admissible (Z.of_nat i) l -> coeff_of K' i l = transposed (coeff_of K) i l) ->
  (forall x y, block_dist tel y x = block_dist tel x y) -> (forall x y, Ea y x = Ea x y) ->
  (forall x y, opd_func tel y x d_z = opd_func tel x y d_z) ->
  forall r c, (r < N)%nat -> (c < N)%nat -> Cmod (at2 F' r c) ^ 2 = Cmod (at2 F c r) ^ 2.
Proof. exact (pattern_transposed illum tel I K K' d_z wavel N bf n Ea u v u' v' F F'). Qed.
Print Assumptions C100_transposed.
(** Centred parabolic illumination, block_manual, block_effelsberg and opd_manual have all three symmetries. *)
Theorem C100_symmetric pr sr a L alpha Fp Ff i_amp c_dB q d Ea x y : illum_parabolic [i_amp; c_dB; q; 0; 0] pr = Ok Ea ->
  let sym (f : R -> R -> R) := f x (- y) = f x y /\ f (- x) y = f x y /\ f y x = f x y in
  sym (block_manual pr sr a L) /\ sym (block_effelsberg alpha) /\ sym (fun x y => opd_manual Fp Ff x y d) /\ sym Ea.
Proof. exact (dish_symmetric pr sr a L alpha Fp Ff i_amp c_dB q d Ea x y). Qed.
Print Assumptions C100_symmetric.
(** Coma, tilt and astigmatism: the lists of coefficients. *)
Example C100_nonvacuous : (forall i l, (i <= 2)%nat -> admissible (Z.of_nat i) l ->
   coeff_of [1; -2; 3; -4; 5; 6] i l = mirrored_y (coeff_of [1; 2; 3; 4; 5; 6]) i l /\
   coeff_of [1; 2; -3; -4; 5; 6] i l = mirrored_x (coeff_of [1; 2; 3; 4; 5; 6]) i l /\
   coeff_of [1; 3; 2; 4; 5; -6] i l = transposed (coeff_of [1; 2; 3; 4; 5; 6]) i l) /\
  exists u v F u' v' F', radiation_pattern illum_parabolic tel98 [1; -14; 2; 0; 0] [1; 2; 3; 4; 5; 6] (1 / 50) (1 / 100) 256 5 = Ok (u, v, F) /\
  radiation_pattern illum_parabolic tel98 [1; -14; 2; 0; 0] [1; 3; 2; 4; 5; -6] (1 / 50) (1 / 100) 256 5 = Ok (u', v', F').
Proof.
  split.
  - intros i l Hi [A [k B]]. destruct i as [|[|[|i]]]; [| | |lia].
    + assert (l = 0%Z) by lia. subst l. cbv -[IZR Rmult Ropp]; lra.
    + assert (C1 : l = (-1)%Z \/ l = 1%Z) by lia. destruct C1 as [-> | ->]; cbv -[IZR Rmult Ropp]; lra.
    + assert (C1 : l = (-2)%Z \/ l = 0%Z \/ l = 2%Z) by lia. destruct C1 as [-> |[-> | ->]]; cbv -[IZR Rmult Ropp]; lra.
  - destruct (proj1 (par_arity [1; -14; 2; 0; 0] (tel_pr tel98)) eq_refl) as [Ea EI].
    destruct (rad_some illum_parabolic tel98 [1; -14; 2; 0; 0] [1; 2; 3; 4; 5; 6] (1 / 50) (1 / 100) 256 5 2 Ea ltac:(lia) eq_refl EI) as (u & v & F & E).
    destruct (rad_some illum_parabolic tel98 [1; -14; 2; 0; 0] [1; 3; 2; 4; 5; -6] (1 / 50) (1 / 100) 256 5 2 Ea ltac:(lia) eq_refl EI) as (u' & v' & F' & E').
    exists u, v, F, u', v', F'. split; assumption.
Qed.
