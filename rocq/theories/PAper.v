(** C29: the aperture distribution. *)
From Verif Require Import PyBase PyLib Sums MZernike PZernike SZernike MMath MAperture PPolar PWave PPhase PPhase2 PSym PZern2 MRad.
From Coquelicot Require Import Coquelicot.
Open Scope R_scope.

Lemma Cmult_conj a b : Cconj (Cmult a b) = Cmult (Cconj a) (Cconj b).
Proof. destruct a as [a1 a2], b as [b1 b2]. unfold Cconj, Cmult. cbn [fst snd]. f_equal; ring. Qed.
Lemma cis_mod t : Cmod (cis t) = 1.
Proof. unfold Cmod, cis. cbn [fst snd]. replace (cos t ^ 2 + sin t ^ 2) with 1; [apply sqrt_1|]. pose proof (sin2_cos2 t) as E. unfold Rsqr in E. nra. Qed.
Lemma cis_plus s t : cis (s + t) = Cmult (cis s) (cis t).
Proof. unfold cis, Cmult. cbn [fst snd]. rewrite cos_plus, sin_plus. f_equal; ring. Qed.
Lemma cis_0 : cis 0 = RtoC 1.
Proof. unfold cis, RtoC. rewrite cos_0, sin_0. reflexivity. Qed.
Lemma cis_conj t : Cconj (cis t) = cis (- t).
Proof. unfold cis, Cconj. cbn [fst snd]. rewrite cos_neg, sin_neg. reflexivity. Qed.
Lemma cis_period t (k : Z) : cis (t + IZR k * (2 * PI)) = cis t.
Proof. unfold cis. rewrite cos_add_2kPI, sin_add_2kPI. reflexivity. Qed.

Lemma wavefront_triangular K W : wavefront K = Ok W -> exists n, (2 * length K = (n + 1) * (n + 2))%nat.
Proof.
  intros E. destruct K as [|k K']; [rewrite wavefront_nil in E; discriminate|]. set (K := k :: K') in *.
  destruct (triangular_bracket (length K)) as [m [H1 H2]].
  destruct (Nat.eq_dec (2 * length K) (m * (m + 1))) as [E2|E2].
  - exists (m - 1)%nat. assert (1 <= m)%nat by (destruct m; cbn in *; lia). nia.
  - exfalso. rewrite wavefront_bad in E; [discriminate|unfold K; congruence|].
    intros [n Hn]. assert (m <= n + 1)%nat by nia. assert (n + 1 <= m)%nat by nia. apply E2. replace m with (n + 1)%nat by lia. lia.
Qed.

(** Explicit value: blockage times illumination times exp(i phi). *)
Lemma aperture_value illum tel I K d_z wavel E : aperture illum tel I K d_z wavel = Ok E ->
  exists Ea W, illum I (tel_pr tel) = Ok Ea /\ wavefront K = Ok W /\
  forall x y, E x y = Cmult (RtoC (block_dist tel x y * Ea x y))
    (cis (2 * PI * (W (sqrt (x ^ 2 + y ^ 2) / tel_pr tel) (arctan2 y x) + opd_func tel x y d_z / wavel))).
Proof.
  unfold aperture. cbv zeta. destruct (wavefront K) as [W|e] eqn:EW; [|discriminate]. cbn [bind].
  destruct (illum I (tel_pr tel)) as [Ea|e] eqn:EI; [|discriminate]. cbn [bind]. intros H. apply Ok_inj in H. subst E.
  exists Ea, W. split; [reflexivity|]. split; [reflexivity|]. intros x y. unfold cart2pol.
  unfold RtoC, cis, Cmult. cbn [fst snd].
  replace ((W (sqrt (x ^ 2 + y ^ 2) / tel_pr tel) (arctan2 y x) + opd_func tel x y d_z / wavel) * 2 * PI)
    with (2 * PI * (W (sqrt (x ^ 2 + y ^ 2) / tel_pr tel) (arctan2 y x) + opd_func tel x y d_z / wavel)) by ring.
  f_equal; ring.
Qed.

Lemma aperture_ok illum tel I K d_z wavel n Ea : (2 * length K = (n + 1) * (n + 2))%nat -> illum I (tel_pr tel) = Ok Ea ->
  exists E, aperture illum tel I K d_z wavel = Ok E /\ forall x y, E x y = Cmult (RtoC (block_dist tel x y * Ea x y))
    (cis (2 * PI * (zernike_series n (coeff_of K) (sqrt (x ^ 2 + y ^ 2) / tel_pr tel) (arctan2 y x) + opd_func tel x y d_z / wavel))).
Proof.
  intros HK HI. destruct (wavefront_series K n HK) as (W & EW & HW).
  assert (exists E, aperture illum tel I K d_z wavel = Ok E) as [E HE] by (unfold aperture; cbv zeta; rewrite EW, HI; cbn [bind]; eexists; reflexivity).
  exists E. split; [exact HE|]. intros x y. destruct (aperture_value _ _ _ _ _ _ _ HE) as (Ea' & W' & EI' & EW' & V).
  rewrite HI in EI'. apply Ok_inj in EI'. rewrite EW in EW'. apply Ok_inj in EW'. subst. rewrite V, HW. reflexivity.
Qed.

Lemma aperture_modulus illum tel I K d_z wavel E : aperture illum tel I K d_z wavel = Ok E ->
  exists Ea, illum I (tel_pr tel) = Ok Ea /\ forall x y, Cmod (E x y) = Rabs (block_dist tel x y * Ea x y) /\ (block_dist tel x y = 0 -> E x y = RtoC 0).
Proof.
  intros H. destruct (aperture_value _ _ _ _ _ _ _ H) as (Ea & W & EI & EW & V). exists Ea. split; [exact EI|]. intros x y. rewrite V. split.
  - rewrite Cmod_mult, cis_mod, Cmod_R, Rmult_1_r. reflexivity.
  - intros ->. rewrite Rmult_0_l. apply Cmult_0_l.
Qed.

(** Replace the piston coefficient. *)
Lemma series_piston n (c c' : nat -> Z -> R) rho t : (forall i l, (1 <= i)%nat -> c' i l = c i l) ->
  zernike_series n c' rho t = zernike_series n c rho t + (c' 0%nat 0%Z - c 0%nat 0%Z).
Proof.
  intros H. induction n as [|n IH].
  - unfold zernike_series. cbn [sum_upto]. cbv zeta. change (2 * Z.of_nat 0 - Z.of_nat 0)%Z with 0%Z.
    rewrite <- Uval_circle by (split; [lia|exists 0%Z; lia]). change (Z.of_nat 0) with 0%Z. rewrite Uval_00. ring.
  - rewrite !(zernike_series_S n). rewrite IH.
    match goal with |- ?a + ?d + ?x = ?a + ?y + ?d => replace x with y; [ring|] end.
    apply sum_upto_ext. intros k Hk. cbv zeta. rewrite H by lia. reflexivity.
Qed.

Lemma coeff_pos_S i l : (1 <= i)%nat -> admissible (Z.of_nat i) l -> (1 <= coeff_pos i l)%nat.
Proof.
  intros Hi [Hl [k Hk]]. unfold coeff_pos. assert (1 <= (Z.of_nat i * (Z.of_nat i + 2) + l) / 2)%Z; [|lia].
  apply Z.div_le_lower_bound; nia.
Qed.

Lemma series_ext n c c' rho t : (forall i l, (i <= n)%nat -> admissible (Z.of_nat i) l -> c i l = c' i l) -> zernike_series n c rho t = zernike_series n c' rho t.
Proof.
  intros H. unfold zernike_series. apply sum_upto_ext. intros i Hi. apply sum_upto_ext. intros k Hk. cbv zeta. rewrite H; [reflexivity|assumption|].
  apply admissible_row. lia.
Qed.

Lemma series_piston_list n k k' K rho t :
  zernike_series n (coeff_of (k' :: K)) rho t = zernike_series n (coeff_of (k :: K)) rho t + (k' - k).
Proof.
  set (c' := fun (i : nat) l => match i with O => k' | _ => coeff_of (k :: K) i l end).
  rewrite (series_ext n (coeff_of (k' :: K)) c').
  - rewrite (series_piston n (coeff_of (k :: K)) c').
    + unfold c'. unfold coeff_of. reflexivity.
    + intros i l Hi. unfold c'. destruct i; [lia|reflexivity].
  - intros i l Hi Ha. unfold c'. destruct i as [|i].
    + destruct Ha as [Hl _]. change (Z.of_nat 0) with 0%Z in Hl. assert (l = 0%Z) by lia. subst l. reflexivity.
    + unfold coeff_of. pose proof (coeff_pos_S (S i) l ltac:(lia) Ha). destruct (coeff_pos (S i) l); [lia|]. reflexivity.
Qed.

Lemma aperture_piston illum tel I k k' K d_z wavel E E' :
  aperture illum tel I (k :: K) d_z wavel = Ok E -> aperture illum tel I (k' :: K) d_z wavel = Ok E' ->
  forall x y, E' x y = Cmult (cis (2 * PI * (k' - k))) (E x y).
Proof.
  intros H H' x y. destruct (aperture_value _ _ _ _ _ _ _ H) as (Ea & W & EI & EW & V). destruct (aperture_value _ _ _ _ _ _ _ H') as (Ea' & W' & EI' & EW' & V').
  rewrite EI in EI'. apply Ok_inj in EI'. subst Ea'. rewrite V, V'.
  assert (D : forall rho t, W' rho t = W rho t + (k' - k)).
  { destruct (wavefront_triangular _ _ EW) as [n Hn].
    destruct (wavefront_series (k :: K) n Hn) as (W1 & E1 & V1). destruct (wavefront_series (k' :: K) n Hn) as (W2 & E2 & V2).
      rewrite E1 in EW. rewrite E2 in EW'. apply Ok_inj in EW. apply Ok_inj in EW'. subst. intros. rewrite V1, V2. apply series_piston_list. }
  rewrite D. rewrite Cmult_assoc, (Cmult_comm (cis _) (RtoC _)), <- Cmult_assoc. f_equal. rewrite <- cis_plus. f_equal. ring.
Qed.

(** Negating all the coefficients and the defocus conjugates. *)
Lemma aperture_conj illum tel I K d_z wavel E E' : (forall x y d, opd_func tel x y (- d) = - opd_func tel x y d) ->
  aperture illum tel I K d_z wavel = Ok E -> aperture illum tel I (map Ropp K) (- d_z) wavel = Ok E' ->
  forall x y, E' x y = Cconj (E x y).
Proof.
  intros Hodd H H' x y. destruct (aperture_value _ _ _ _ _ _ _ H) as (Ea & W & EI & EW & V). destruct (aperture_value _ _ _ _ _ _ _ H') as (Ea' & W' & EI' & EW' & V').
  rewrite EI in EI'. apply Ok_inj in EI'. subst Ea'. rewrite V, V'.
  assert (D : forall rho t, W' rho t = - W rho t).
  { destruct (wavefront_linear K K (-1) 0 W W eq_refl EW EW) as (W2 & E2 & V2).
    replace (map2 (fun k k' => -1 * k + 0 * k') K K) with (map Ropp K) in E2.
    2:{ clear. induction K as [|k K IH]; [reflexivity|]. cbn [map map2]. rewrite IH. f_equal. ring. }
    rewrite E2 in EW'. apply Ok_inj in EW'. subst. intros. rewrite V2. ring. }
  rewrite D, Hodd. rewrite Cmult_conj, cis_conj. f_equal.
  - unfold Cconj, RtoC. cbn. f_equal. ring.
  - f_equal. unfold Rdiv. ring.
Qed.
