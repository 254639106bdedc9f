(** The power of radiation_pattern, sample by sample (C32, C33). *)
From Verif Require Import PyBase PyLib Sums Num MMath MAperture MTel MRad PIllum PAper PFft PRad SZernike.
From Coquelicot Require Import Coquelicot.
Open Scope R_scope.

Lemma map2d_nth {A B} (f : A -> B) (da : A) (db : B) M j i : f da = db -> nth i (nth j (map2d f M) []) db = f (nth i (nth j M []) da).
Proof.
  intros <-. unfold map2d. change (@nil B) with (map f []). rewrite map_nth. apply map_nth.
Qed.
Lemma power_nth F j i : nth i (nth j (power_pattern F) []) 0 = Cmod (at2 F j i) ^ 2.
Proof. unfold power_pattern, at2. apply (map2d_nth (fun z => Cmod z ^ 2)). rewrite Cmod_0. ring. Qed.
Lemma power_same F F' : power_pattern F' = power_pattern F -> forall j i, Cmod (at2 F' j i) ^ 2 = Cmod (at2 F j i) ^ 2.
Proof. intros E j i. rewrite <- !power_nth, E. reflexivity. Qed.
Lemma power_scaled g F F' : power_pattern F' = map2d (Rmult g) (power_pattern F) -> forall j i, Cmod (at2 F' j i) ^ 2 = g * Cmod (at2 F j i) ^ 2.
Proof. intros E j i. rewrite <- !power_nth, E. apply (map2d_nth (Rmult g)). ring. Qed.

Lemma piston_samples illum tel I k k' K d_z wavel N bf u v F u' v' F' :
  radiation_pattern illum tel I (k :: K) d_z wavel N bf = Ok (u, v, F) -> radiation_pattern illum tel I (k' :: K) d_z wavel N bf = Ok (u', v', F') ->
  u' = u /\ v' = v /\ forall j i, Cmod (at2 F' j i) ^ 2 = Cmod (at2 F j i) ^ 2.
Proof. intros H H'. destruct (power_piston _ _ _ _ _ _ _ _ _ _ _ _ _ _ _ _ H H') as (A & B & E). split; [exact A|]. split; [exact B|]. apply power_same, E. Qed.
Lemma gain_samples_parabolic tel g i_amp c_dB q x0 y0 K d_z wavel N bf u v F : 0 < tel_pr tel -> 0 < q ->
  radiation_pattern illum_parabolic tel [i_amp; c_dB; q; x0; y0] K d_z wavel N bf = Ok (u, v, F) ->
  exists F', radiation_pattern illum_parabolic tel [g * i_amp; c_dB; q; x0; y0] K d_z wavel N bf = Ok (u, v, F') /\
    forall j i, Cmod (at2 F' j i) ^ 2 = g ^ 2 * Cmod (at2 F j i) ^ 2.
Proof. intros Hp Hq H. destruct (power_gain_parabolic tel g _ _ _ _ _ _ _ _ _ _ _ _ _ Hp Hq H) as (F' & E & P). exists F'. split; [exact E|]. apply power_scaled, P. Qed.
Lemma gain_samples_gauss tel g i_amp c_dB x0 y0 K d_z wavel N bf u v F :
  radiation_pattern illum_gauss tel [i_amp; c_dB; x0; y0] K d_z wavel N bf = Ok (u, v, F) ->
  exists F', radiation_pattern illum_gauss tel [g * i_amp; c_dB; x0; y0] K d_z wavel N bf = Ok (u, v, F') /\
    forall j i, Cmod (at2 F' j i) ^ 2 = g ^ 2 * Cmod (at2 F j i) ^ 2.
Proof. intros H. destruct (power_gain_gauss tel g _ _ _ _ _ _ _ _ _ _ _ _ H) as (F' & E & P). exists F'. split; [exact E|]. apply power_scaled, P. Qed.
Lemma same_axes illum tel I K d_z illum' I' K' d_z' wavel N bf u v F u' v' F' :
  radiation_pattern illum tel I K d_z wavel N bf = Ok (u, v, F) -> radiation_pattern illum' tel I' K' d_z' wavel N bf = Ok (u', v', F') -> u' = u /\ v' = v.
Proof.
  intros H H'. destruct (rad_inv _ _ _ _ _ _ _ _ _ _ _ H) as (_ & E & _ & _ & Eu & Ev). destruct (rad_inv _ _ _ _ _ _ _ _ _ _ _ H') as (_ & E' & _ & _ & Eu' & Ev').
  split; congruence.
Qed.
Lemma ambiguity_samples illum tel I K K' n d_z wavel N bf u v F u' v' F' : (2 * length K = (n + 1) * (n + 2))%nat -> length K' = length K ->
  (forall i l, (i <= n)%nat -> admissible (Z.of_nat i) l -> coeff_of K' i l = (-1) ^ (S i) * coeff_of K i l) ->
  (forall x y, block_dist tel (- x) (- y) = block_dist tel x y) ->
  (forall x y d, opd_func tel (- x) (- y) (- d) = - opd_func tel x y d) ->
  (forall Ea, illum I (tel_pr tel) = Ok Ea -> forall x y, Ea (- x) (- y) = Ea x y) ->
  radiation_pattern illum tel I K d_z wavel N bf = Ok (u, v, F) -> radiation_pattern illum tel I K' (- d_z) wavel N bf = Ok (u', v', F') ->
  u' = u /\ v' = v /\ forall j i, Cmod (at2 F' j i) ^ 2 = Cmod (at2 F j i) ^ 2.
Proof.
  intros HK HL HC HB HO HS H H'. destruct (same_axes _ _ _ _ _ _ _ _ _ _ _ _ _ _ _ _ _ _ H H') as [A B]. split; [exact A|]. split; [exact B|].
  apply power_same. exact (power_ambiguity illum tel I K K' n d_z wavel N bf u v F u' v' F' HK HL HC HB HO HS H H').
Qed.
Lemma ambiguity_samples_manual pr sr a L Fp Fo i_amp c_dB q K K' n d_z wavel N bf u v F u' v' F' :
  let tel := {| block_dist := block_manual pr sr a L; opd_func := opd_manual Fp Fo; tel_pr := pr |} in
  let I := [i_amp; c_dB; q; 0; 0] in
  (2 * length K = (n + 1) * (n + 2))%nat -> length K' = length K ->
  (forall i l, (i <= n)%nat -> admissible (Z.of_nat i) l -> coeff_of K' i l = (-1) ^ (S i) * coeff_of K i l) ->
  radiation_pattern illum_parabolic tel I K d_z wavel N bf = Ok (u, v, F) -> radiation_pattern illum_parabolic tel I K' (- d_z) wavel N bf = Ok (u', v', F') ->
  u' = u /\ v' = v /\ forall j i, Cmod (at2 F' j i) ^ 2 = Cmod (at2 F j i) ^ 2.
Proof.
  intros tel I HK HL HC H H'. destruct (same_axes _ _ _ _ _ _ _ _ _ _ _ _ _ _ _ _ _ _ H H') as [A B]. split; [exact A|]. split; [exact B|].
  apply power_same. exact (power_ambiguity_manual pr sr a L Fp Fo i_amp c_dB q K K' n d_z wavel N bf u v F u' v' F' HK HL HC H H').
Qed.
