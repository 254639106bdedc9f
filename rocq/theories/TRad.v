(** Property theorems C30-C33, C61: pyoof.aperture.radiation_pattern. *)
From Verif Require Import PyBase PyLib Sums Num MMath MAperture MTel MRad PIllum PAper PFft PRad PRad2 SZernike MCore PResid.
From Coquelicot Require Import Coquelicot.
Open Scope R_scope.

(** C30. *)
Theorem C30_parseval illum tel I K d_z wavel N bf u v F : radiation_pattern illum tel I K d_z wavel N bf = Ok (u, v, F) ->
  exists E, aperture illum tel I K d_z wavel = Ok E /\
  let x i := nth i (linspace (- (tel_pr tel * bf)) (tel_pr tel * bf) N) 0 in
  Rsum N (fun j => Rsum N (fun i => Cmod (at2 F j i) ^ 2)) = INR N ^ 2 * Rsum N (fun j => Rsum N (fun i => Cmod (E (x i) (x j)) ^ 2)) /\
  at2 F (N / 2) (N / 2) = Csum N (fun j => Csum N (fun i => E (x i) (x j))) /\
  (forall j i, (j < N)%nat -> (i < N)%nat -> Cmod (at2 F j i) <= Rsum N (fun j => Rsum N (fun i => Cmod (E (x i) (x j))))).
Proof. exact (parseval_api illum tel I K d_z wavel N bf u v F). Qed.
Print Assumptions C30_parseval.
Theorem C30_power_conserved illum tel I K d_z wavel K' d_z' wavel' N bf u v F u' v' F' :
  radiation_pattern illum tel I K d_z wavel N bf = Ok (u, v, F) -> radiation_pattern illum tel I K' d_z' wavel' N bf = Ok (u', v', F') ->
  Rsum N (fun j => Rsum N (fun i => Cmod (at2 F j i) ^ 2)) = Rsum N (fun j => Rsum N (fun i => Cmod (at2 F' j i) ^ 2)).
Proof. exact (power_conserved illum tel I K d_z wavel K' d_z' wavel' N bf u v F u' v' F'). Qed.
Print Assumptions C30_power_conserved.
(** Fewer than two samples is an IndexError. *)
Theorem C30_too_small illum tel I K d_z wavel N bf : (N < 2)%nat -> radiation_pattern illum tel I K d_z wavel N bf = Err IndexError.
Proof. exact (rad_small illum tel I K d_z wavel N bf). Qed.
Print Assumptions C30_too_small.
Definition tel30 : telgeo := {| block_dist := block_manual 50 3 1 20; opd_func := opd_manual 30 300; tel_pr := 50 |}.
(** Runs that satisfy the hypotheses of C30-C33 and C61. *)
Lemma run30 I K n d_z N : length I = 5%nat -> (2 * length K = (n + 1) * (n + 2))%nat -> (2 <= N)%nat ->
  exists u v F, radiation_pattern illum_parabolic tel30 I K d_z (1 / 100) N 5 = Ok (u, v, F).
Proof.
  intros HI HK HN. destruct (proj1 (par_arity I (tel_pr tel30)) HI) as [Ea EI].
  destruct (aperture_ok illum_parabolic tel30 I K d_z (1 / 100) n Ea HK EI) as (E & HE & _).
  rewrite rad_unfold by assumption. cbv zeta. rewrite HE. cbn [bind]. eexists _, _, _. reflexivity.
Qed.
Example C30_nonvacuous : exists u v F u' v' F',
  radiation_pattern illum_parabolic tel30 [1; -14; 2; 0; 0] [1; 2; 3] (1 / 50) (1 / 100) 256 5 = Ok (u, v, F) /\
  radiation_pattern illum_parabolic tel30 [1; -14; 2; 0; 0] [1; 2; 3; 4; 5; 6] 0 (1 / 100) 256 5 = Ok (u', v', F').
Proof.
  destruct (run30 [1; -14; 2; 0; 0] [1; 2; 3] 1 (1 / 50) 256 eq_refl eq_refl ltac:(lia)) as (u & v & F & E).
  destruct (run30 [1; -14; 2; 0; 0] [1; 2; 3; 4; 5; 6] 2 0 256 eq_refl eq_refl ltac:(lia)) as (u' & v' & F' & E').
  exists u, v, F, u', v', F'. split; assumption.
Qed.

(** C31. *)
Theorem C31_axes illum tel I K d_z wavel N bf u v F : 0 < wavel -> 0 < tel_pr tel -> 0 < bf ->
  radiation_pattern illum tel I K d_z wavel N bf = Ok (u, v, F) ->
  u = v /\ length u = N /\ length F = N /\ (forall row, In row F -> length row = N) /\ (N / 2 < N)%nat /\
  let step := wavel * (INR N - 1) / (2 * (bf * tel_pr tel) * INR N) in
  0 < step /\ (forall i, (i < N)%nat -> nth i u 0 = (INR i - INR (N / 2)) * step) /\
  nth (N / 2) u 0 = 0 /\ (forall i j, (i < j < N)%nat -> nth i u 0 < nth j u 0).
Proof. exact (axes_api illum tel I K d_z wavel N bf u v F). Qed.
Print Assumptions C31_axes.
(** Example for C31: C30_nonvacuous with 0 < 1/100, 0 < 50, 0 < 5. *)
Example C31_nonvacuous : 0 < 1 / 100 /\ 0 < tel_pr tel30 /\ 0 < 5 /\ exists u v F,
  radiation_pattern illum_parabolic tel30 [1; -14; 2; 0; 0] [1; 2; 3] (1 / 50) (1 / 100) 255 5 = Ok (u, v, F).
Proof. cbn [tel_pr tel30]. split; [lra|]. split; [lra|]. split; [lra|]. apply (run30 _ _ 1); [reflexivity|reflexivity|lia]. Qed.

(** C32. *)
Theorem C32_piston illum tel I k k' K d_z wavel N bf u v F u' v' F' :
  radiation_pattern illum tel I (k :: K) d_z wavel N bf = Ok (u, v, F) -> radiation_pattern illum tel I (k' :: K) d_z wavel N bf = Ok (u', v', F') ->
  u' = u /\ v' = v /\ forall j i, Cmod (at2 F' j i) ^ 2 = Cmod (at2 F j i) ^ 2.
Proof. exact (piston_samples illum tel I k k' K d_z wavel N bf u v F u' v' F'). Qed.
Print Assumptions C32_piston.
Theorem C32_amplitude_parabolic tel g i_amp c_dB q x0 y0 K d_z wavel N bf u v F : 0 < tel_pr tel -> 0 < q ->
  radiation_pattern illum_parabolic tel [i_amp; c_dB; q; x0; y0] K d_z wavel N bf = Ok (u, v, F) ->
  exists F', radiation_pattern illum_parabolic tel [g * i_amp; c_dB; q; x0; y0] K d_z wavel N bf = Ok (u, v, F') /\ forall j i, Cmod (at2 F' j i) ^ 2 = g ^ 2 * Cmod (at2 F j i) ^ 2.
Proof. exact (gain_samples_parabolic tel g i_amp c_dB q x0 y0 K d_z wavel N bf u v F). Qed.
Print Assumptions C32_amplitude_parabolic.
Theorem C32_amplitude_gauss tel g i_amp c_dB x0 y0 K d_z wavel N bf u v F :
  radiation_pattern illum_gauss tel [i_amp; c_dB; x0; y0] K d_z wavel N bf = Ok (u, v, F) ->
  exists F', radiation_pattern illum_gauss tel [g * i_amp; c_dB; x0; y0] K d_z wavel N bf = Ok (u, v, F') /\ forall j i, Cmod (at2 F' j i) ^ 2 = g ^ 2 * Cmod (at2 F j i) ^ 2.
Proof. exact (gain_samples_gauss tel g i_amp c_dB x0 y0 K d_z wavel N bf u v F). Qed.
Print Assumptions C32_amplitude_gauss.
(** Hence the residual that the fit minimises: same value, or same exception. *)
Theorem C32_residual_piston illum tel I k k' K beam u_data v_data d_z wavel N bf : length I = 5%nat ->
  residual_true illum tel (I ++ k' :: K) beam u_data v_data d_z wavel N bf = residual_true illum tel (I ++ k :: K) beam u_data v_data d_z wavel N bf.
Proof. exact (residual_piston illum tel I k k' K beam u_data v_data d_z wavel N bf). Qed.
Print Assumptions C32_residual_piston.
Theorem C32_residual_amplitude tel i_amp i_amp' c_dB q x0 y0 K beam u_data v_data d_z wavel N bf : 0 < tel_pr tel -> 0 < q -> i_amp <> 0 -> i_amp' <> 0 ->
  residual_true illum_parabolic tel (i_amp' :: c_dB :: q :: x0 :: y0 :: K) beam u_data v_data d_z wavel N bf =
  residual_true illum_parabolic tel (i_amp :: c_dB :: q :: x0 :: y0 :: K) beam u_data v_data d_z wavel N bf.
Proof. exact (residual_amplitude tel i_amp i_amp' c_dB q x0 y0 K beam u_data v_data d_z wavel N bf). Qed.
Print Assumptions C32_residual_amplitude.
Example C32_nonvacuous : 0 < tel_pr tel30 /\ 0 < 2 /\ 1 <> 0 /\ 3 <> 0 /\ exists u v F u' v' F',
  radiation_pattern illum_parabolic tel30 [1; -14; 2; 0; 0] [1; 2; 3] (1 / 50) (1 / 100) 256 5 = Ok (u, v, F) /\
  radiation_pattern illum_parabolic tel30 [1; -14; 2; 0; 0] [7; 2; 3] (1 / 50) (1 / 100) 256 5 = Ok (u', v', F').
Proof.
  cbn [tel_pr tel30]. split; [lra|]. split; [lra|]. split; [lra|]. split; [lra|].
  destruct (run30 [1; -14; 2; 0; 0] [1; 2; 3] 1 (1 / 50) 256 eq_refl eq_refl ltac:(lia)) as (u & v & F & E).
  destruct (run30 [1; -14; 2; 0; 0] [7; 2; 3] 1 (1 / 50) 256 eq_refl eq_refl ltac:(lia)) as (u' & v' & F' & E').
  exists u, v, F, u', v', F'. split; assumption.
Qed.

(** C33. *)
Theorem C33_ambiguity illum tel I K K' n d_z wavel N bf u v F u' v' F' : (2 * length K = (n + 1) * (n + 2))%nat -> length K' = length K ->
  (forall i l, (i <= n)%nat -> admissible (Z.of_nat i) l -> coeff_of K' i l = (-1) ^ (S i) * coeff_of K i l) ->
  (forall x y, block_dist tel (- x) (- y) = block_dist tel x y) ->
  (forall x y d, opd_func tel (- x) (- y) (- d) = - opd_func tel x y d) ->
  (forall Ea, illum I (tel_pr tel) = Ok Ea -> forall x y, Ea (- x) (- y) = Ea x y) ->
  radiation_pattern illum tel I K d_z wavel N bf = Ok (u, v, F) -> radiation_pattern illum tel I K' (- d_z) wavel N bf = Ok (u', v', F') ->
  u' = u /\ v' = v /\ forall j i, Cmod (at2 F' j i) ^ 2 = Cmod (at2 F j i) ^ 2.
Proof. exact (ambiguity_samples illum tel I K K' n d_z wavel N bf u v F u' v' F'). Qed.
Print Assumptions C33_ambiguity.
(** For the manual geometry and a centred parabolic taper nothing is left to assume. *)
Theorem C33_manual pr sr a L Fp Fo i_amp c_dB q K K' n d_z wavel N bf u v F u' v' F' :
  let tel := {| block_dist := block_manual pr sr a L; opd_func := opd_manual Fp Fo; tel_pr := pr |} in
  let I := [i_amp; c_dB; q; 0; 0] in
  (2 * length K = (n + 1) * (n + 2))%nat -> length K' = length K ->
  (forall i l, (i <= n)%nat -> admissible (Z.of_nat i) l -> coeff_of K' i l = (-1) ^ (S i) * coeff_of K i l) ->
  radiation_pattern illum_parabolic tel I K d_z wavel N bf = Ok (u, v, F) -> radiation_pattern illum_parabolic tel I K' (- d_z) wavel N bf = Ok (u', v', F') ->
  u' = u /\ v' = v /\ forall j i, Cmod (at2 F' j i) ^ 2 = Cmod (at2 F j i) ^ 2.
Proof. exact (ambiguity_samples_manual pr sr a L Fp Fo i_amp c_dB q K K' n d_z wavel N bf u v F u' v' F'). Qed.
Print Assumptions C33_manual.
Example C33_nonvacuous : (forall i l, (i <= 2)%nat -> admissible (Z.of_nat i) l ->
    coeff_of [-1; 2; 3; -4; -5; -6] i l = (-1) ^ (S i) * coeff_of [1; 2; 3; 4; 5; 6] i l) /\ exists u v F u' v' F',
  radiation_pattern illum_parabolic tel30 [1; -14; 2; 0; 0] [1; 2; 3; 4; 5; 6] (1 / 50) (1 / 100) 256 5 = Ok (u, v, F) /\
  radiation_pattern illum_parabolic tel30 [1; -14; 2; 0; 0] [-1; 2; 3; -4; -5; -6] (- (1 / 50)) (1 / 100) 256 5 = Ok (u', v', F').
Proof.
  split.
  - intros i l Hi [Hl [k Hk]]. destruct i as [|[|[|i]]]; [| | |lia].
    + assert (l = 0)%Z as -> by lia. cbv. lra.
    + assert (l = 1 \/ l = -1)%Z as [->| ->] by lia; cbv; lra.
    + assert (l = 2 \/ l = 0 \/ l = -2)%Z as [->|[->| ->]] by lia; cbv; lra.
  - destruct (run30 [1; -14; 2; 0; 0] [1; 2; 3; 4; 5; 6] 2 (1 / 50) 256 eq_refl eq_refl ltac:(lia)) as (u & v & F & E).
    destruct (run30 [1; -14; 2; 0; 0] [-1; 2; 3; -4; -5; -6] 2 (- (1 / 50)) 256 eq_refl eq_refl ltac:(lia)) as (u' & v' & F' & E').
    exists u, v, F, u', v', F'. split; assumption.
Qed.

(** C61. A tilt of a whole number of bins moves the pattern by that many bins:
    the second coefficient along v (rows), the third along u (columns). *)
Theorem C61_tilt_shift illum tel I k0 k1 k2 K a b n d_z wavel N bf u v F u' v' F' :
  0 < tel_pr tel -> 0 < bf ->
  (2 * length (k0 :: k1 :: k2 :: K) = (n + 1) * (n + 2))%nat ->
  let bin := (INR N - 1) / (2 * bf * INR N) in
  radiation_pattern illum tel I (k0 :: k1 :: k2 :: K) d_z wavel N bf = Ok (u, v, F) ->
  radiation_pattern illum tel I (k0 :: (k1 + INR b * bin) :: (k2 + INR a * bin) :: K) d_z wavel N bf = Ok (u', v', F') ->
  forall j i, (j + b < N)%nat -> (i + a < N)%nat -> Cmod (at2 F' (j + b) (i + a)) = Cmod (at2 F j i).
Proof. exact (power_tilt illum tel I k0 k1 k2 K a b n d_z wavel N bf u v F u' v' F'). Qed.
Print Assumptions C61_tilt_shift.
Example C61_nonvacuous : let bin := (INR 256 - 1) / (2 * 5 * INR 256) in exists u v F u' v' F',
  radiation_pattern illum_parabolic tel30 [1; -14; 2; 0; 0] [1; 2; 3] (1 / 50) (1 / 100) 256 5 = Ok (u, v, F) /\
  radiation_pattern illum_parabolic tel30 [1; -14; 2; 0; 0] [1; 2 + INR 2 * bin; 3 + INR 1 * bin] (1 / 50) (1 / 100) 256 5 = Ok (u', v', F').
Proof.
  intros bin. destruct (run30 [1; -14; 2; 0; 0] [1; 2; 3] 1 (1 / 50) 256 eq_refl eq_refl ltac:(lia)) as (u & v & F & E).
  destruct (run30 [1; -14; 2; 0; 0] [1; 2 + INR 2 * bin; 3 + INR 1 * bin] 1 (1 / 50) 256 eq_refl eq_refl ltac:(lia)) as (u' & v' & F' & E').
  exists u, v, F, u', v', F'. split; assumption.
Qed.
