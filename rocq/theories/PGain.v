(** The gain of a telescope with phase errors (C98). *)
From Coq Require Import List ZArith Lia Lra.
From Verif Require Import PyBase PyLib Sums Num MMath MAperture MTel MRad SZernike SRad SGain PAper PFft PRad PRad2 PFar PRms PWave.
From Coquelicot Require Import Complex.
Import ListNotations.
Open Scope R_scope.

(** 1 - x^2/2 <= cos x. *)
Lemma cos_lower x : 1 - x ^ 2 / 2 <= cos x.
Proof.
  pose proof (cos_2a_sin (x / 2)) as E. replace (2 * (x / 2)) with x in E by field. rewrite E.
  assert (H : Rabs (sin (x / 2)) <= Rabs (x / 2)).
  { destruct (Req_EM_T (x / 2) 0) as [->|N0]; [rewrite sin_0; lra|].
    destruct (Rle_dec 0 (x / 2)) as [P|P].
    - rewrite (Rabs_right (x / 2)) by lra. apply Rabs_le. pose proof (sin_lt_x (x / 2) ltac:(lra)) as A.
      split; [|lra]. destruct (Rle_dec (x / 2) PI) as [Q|Q]; [pose proof (sin_ge_0 (x / 2) P Q); lra|].
      pose proof (SIN_bound (x / 2)). pose proof PI2_3_2. lra.
    - rewrite (Rabs_left (x / 2)) by lra. rewrite <- Rabs_Ropp, <- sin_neg. apply Rabs_le.
      pose proof (sin_lt_x (- (x / 2)) ltac:(lra)) as A.
      split; [|lra]. destruct (Rle_dec (- (x / 2)) PI) as [Q|Q]; [pose proof (sin_ge_0 (- (x / 2)) ltac:(lra) Q); lra|].
      pose proof (SIN_bound (- (x / 2))). pose proof PI2_3_2. lra. }
  assert (S2 : sin (x / 2) ^ 2 <= (x / 2) ^ 2) by (rewrite <- (pow2_abs (sin (x / 2))), <- (pow2_abs (x / 2)); apply pow_incr; split; [apply Rabs_pos|exact H]).
  nra.
Qed.

(** Weighted unit vectors: the modulus of the sum is at least ... *)
Lemma vectors_one (L : list (R * R)) p : (forall a, In a L -> 0 <= fst a) ->
  2 * py_sum (map fst L) - py_sum (map (fun a => fst a * snd a ^ 2) L) - p ^ 2 * py_sum (map fst L) + 2 * p * py_sum (map (fun a => fst a * snd a) L)
  <= 2 * (py_sum (map (fun a => fst a * cos (snd a)) L) * cos p + py_sum (map (fun a => fst a * sin (snd a)) L) * sin p).
Proof.
  induction L as [|[w q] L IH]; intros H; [cbn; lra|].
  cbn [map fst snd]. rewrite !py_sum_cons. assert (W : 0 <= w) by (apply (H (w, q)); left; reflexivity).
  specialize (IH ltac:(intros a Ha; apply H; right; exact Ha)).
  pose proof (cos_lower (q - p)) as Cq. rewrite cos_minus in Cq.
  assert (w * (1 - (q - p) ^ 2 / 2) <= w * (cos q * cos p + sin q * sin p)) by (apply Rmult_le_compat_l; assumption).
  nra.
Qed.
Lemma vectors_all (L : list (R * R)) : (forall a, In a L -> 0 <= fst a) ->
  py_sum (map fst L) ^ 2 - (py_sum (map fst L) * py_sum (map (fun a => fst a * snd a ^ 2) L) - py_sum (map (fun a => fst a * snd a) L) ^ 2)
  <= py_sum (map (fun a => fst a * cos (snd a)) L) ^ 2 + py_sum (map (fun a => fst a * sin (snd a)) L) ^ 2.
Proof.
  induction L as [|[w p] L IH]; intros H; [cbn; lra|].
  assert (W : 0 <= w) by (apply (H (w, p)); left; reflexivity).
  assert (H' : forall a, In a L -> 0 <= fst a) by (intros a Ha; apply H; right; exact Ha). specialize (IH H').
  pose proof (Rmult_le_compat_l w _ _ W (vectors_one L p H')) as V.
  cbn [map fst snd]. rewrite !py_sum_cons.
  set (A := py_sum (map fst L)) in *. set (Q := py_sum (map (fun a => fst a * snd a ^ 2) L)) in *. set (M := py_sum (map (fun a => fst a * snd a) L)) in *.
  set (Cc := py_sum (map (fun a => fst a * cos (snd a)) L)) in *. set (Ss := py_sum (map (fun a => fst a * sin (snd a)) L)) in *.
  pose proof (sin2_cos2 p) as T. unfold Rsqr in T.
  assert (w * w * (sin p * sin p + cos p * cos p) = w * w) by (rewrite T; ring). nra.
Qed.

(** The same for sums over the samples. *)
Definition samples (box : R) (N : nat) (w f : R -> R -> R) : list (R * R) :=
  concat (map (fun j => map (fun i => (w (sample box N i) (sample box N j), f (sample box N i) (sample box N j))) (seq 0 N)) (seq 0 N)).
Lemma samples_sum box N w f (g : R * R -> R) : py_sum (map g (samples box N w f)) = over_samples box N (fun x y => g (w x y, f x y)).
Proof.
  unfold samples, over_samples. rewrite concat_map, map_map.
  assert (G : forall l : list (list R), py_sum (concat l) = py_sum (map py_sum l)).
  { induction l as [|r l IH]; [reflexivity|]. cbn [concat map]. rewrite py_sum_app, py_sum_cons, IH. reflexivity. }
  rewrite G, map_map, py_sum_seq. apply Rsum_ext. intros j Hj. rewrite map_map, py_sum_seq. reflexivity.
Qed.
Lemma samples_in box N w f a : In a (samples box N w f) -> exists x y, a = (w x y, f x y).
Proof.
  unfold samples. rewrite in_concat. intros (l & Hl & Ha). apply in_map_iff in Hl as (j & <- & _). apply in_map_iff in Ha as (i & <- & _). eexists _, _. reflexivity.
Qed.
Lemma over_ext box N f g : (forall x y, f x y = g x y) -> over_samples box N f = over_samples box N g.
Proof. intros H. unfold over_samples. apply Rsum_ext. intros j _. apply Rsum_ext. intros i _. apply H. Qed.
Lemma over_plus box N f g : over_samples box N (fun x y => f x y + g x y) = over_samples box N f + over_samples box N g.
Proof. unfold over_samples. rewrite <- Rsum_plus. apply Rsum_ext. intros j _. apply Rsum_plus. Qed.
Lemma over_scal box N c f : over_samples box N (fun x y => c * f x y) = c * over_samples box N f.
Proof. unfold over_samples. rewrite <- Rsum_scal. apply Rsum_ext. intros j _. apply Rsum_scal. Qed.
Lemma over_nonneg box N f : (forall x y, 0 <= f x y) -> 0 <= over_samples box N f.
Proof. intros H. unfold over_samples. apply Rsum_nonneg. intros j _. apply Rsum_nonneg. intros i _. apply H. Qed.
Lemma over_le box N f g : (forall x y, f x y <= g x y) -> over_samples box N f <= over_samples box N g.
Proof. intros H. unfold over_samples. apply Rsum_le. intros j _. apply Rsum_le. intros i _. apply H. Qed.

Lemma variance_moments box N w f : over_samples box N w <> 0 ->
  over_samples box N w ^ 2 * weighted_variance box N w f =
  over_samples box N w * over_samples box N (fun x y => w x y * f x y ^ 2) - over_samples box N (fun x y => w x y * f x y) ^ 2.
Proof.
  intros H. unfold weighted_variance. set (m := weighted_mean box N w f).
  unfold weighted_mean. rewrite (over_ext box N (fun x y => w x y * (f x y - m) ^ 2) (fun x y => w x y * f x y ^ 2 + ((-2 * m) * (w x y * f x y) + m ^ 2 * w x y))) by (intros; ring).
  rewrite over_plus, over_plus, !over_scal. subst m. unfold weighted_mean. field. exact H.
Qed.

Lemma vectors_samples box N w f : (forall x y, 0 <= w x y) -> over_samples box N w <> 0 ->
  over_samples box N w ^ 2 * (1 - weighted_variance box N w f) <=
  over_samples box N (fun x y => w x y * cos (f x y)) ^ 2 + over_samples box N (fun x y => w x y * sin (f x y)) ^ 2.
Proof.
  intros W H. rewrite Rmult_minus_distr_l, Rmult_1_r, variance_moments by exact H.
  pose proof (vectors_all (samples box N w f)) as V. rewrite !samples_sum in V. cbn [fst snd] in V. apply V.
  intros a Ha. apply samples_in in Ha as (x & y & ->). apply W.
Qed.

(** The sum of the aperture field is the on-axis sample of the pattern. *)
Lemma Csum_parts n f : Csum n f = (Rsum n (fun i => fst (f i)), Rsum n (fun i => snd (f i))).
Proof. induction n as [|n IH]; [reflexivity|]. rewrite !Rsum_Sr. cbn [Csum]. rewrite IH. reflexivity. Qed.

Section Gain.
Variables (illum : list R -> R -> res (R -> R -> R)) (tel : telgeo) (I K : list R) (d_z wavel : R) (N : nat) (bf : R) (n : nat) (Ea : R -> R -> R).
Hypothesis HK : (2 * length K = (n + 1) * (n + 2))%nat.
Hypothesis HI : illum I (tel_pr tel) = Ok Ea.
Let w x y := block_dist tel x y * Ea x y.
Let phi := aperture_phase tel n K d_z wavel.
Let box := tel_pr tel * bf.

Lemma gain_field u v F : radiation_pattern illum tel I K d_z wavel N bf = Ok (u, v, F) ->
  at2 F (N / 2) (N / 2) = (over_samples box N (fun x y => w x y * cos (phi x y)), over_samples box N (fun x y => w x y * sin (phi x y))) /\
  forall j i, (j < N)%nat -> (i < N)%nat -> Cmod (at2 F j i) <= over_samples box N (fun x y => Rabs (w x y)).
Proof.
  intros E. destruct (rad_inv _ _ _ _ _ _ _ _ _ _ _ E) as (HN & _).
  destruct (parseval_api _ _ _ _ _ _ _ _ _ _ _ E) as (A & HA & _ & C0 & CB).
  destruct (aperture_ok illum tel I K d_z wavel n Ea HK HI) as (A' & HA' & V). rewrite HA in HA'. injection HA' as <-.
  assert (VV : forall x y, A x y = (w x y * cos (phi x y), w x y * sin (phi x y))).
  { intros x y. rewrite V. unfold Cmult, RtoC, cis, w, phi, aperture_phase. cbn [fst snd]. f_equal; ring. }
  assert (G : forall i, (i < N)%nat -> nth i (linspace (- box) box N) 0 = sample box N i).
  { intros i Hi. rewrite <- gx_sample by exact HN. unfold gx. rewrite linspace_nth by exact Hi. reflexivity. }
  split.
  - rewrite C0. rewrite Csum_parts. unfold over_samples. f_equal; apply Rsum_ext; intros j Hj; rewrite Csum_parts; cbn [fst snd]; apply Rsum_ext; intros i Hi;
      fold box; rewrite VV; cbn [fst snd]; rewrite !G by assumption; reflexivity.
  - intros j i Hj Hi. eapply Rle_trans; [apply CB; assumption|]. right. unfold over_samples. apply Rsum_ext. intros j' Hj'. apply Rsum_ext. intros i' Hi'.
    fold box. rewrite !G by assumption. rewrite V, Cmod_mult, cis_mod, Cmod_R, Rmult_1_r. reflexivity.
Qed.
End Gain.

(** No phase errors: zero coefficients in focus. *)
Lemma sum_upto_zero n f : (forall i, f i = 0) -> sum_upto n f = 0.
Proof. intros H. induction n as [|n IH]; cbn; rewrite ?IH, H; lra. Qed.
Lemma nth_zeros m k : nth k (repeat 0 m) 0 = 0.
Proof. revert k. induction m as [|m IH]; intros [|k]; cbn; auto. Qed.
Lemma phase_flat tel n m wavel x y : opd_func tel x y 0 = 0 -> aperture_phase tel n (repeat 0 m) 0 wavel x y = 0.
Proof.
  intros H. unfold aperture_phase. rewrite H. unfold zernike_series. rewrite sum_upto_zero; [unfold Rdiv; ring|].
  intros i. apply sum_upto_zero. intros k. unfold coeff_of. rewrite nth_zeros. ring.
Qed.

Lemma gain_api illum tel I K d_z wavel N bf n Ea u v F u0 v0 F0 : (2 * length K = (n + 1) * (n + 2))%nat -> illum I (tel_pr tel) = Ok Ea ->
  (forall x y, 0 <= block_dist tel x y * Ea x y) -> (forall x y, opd_func tel x y 0 = 0) ->
  radiation_pattern illum tel I K d_z wavel N bf = Ok (u, v, F) ->
  radiation_pattern illum tel I (repeat 0 (length K)) 0 wavel N bf = Ok (u0, v0, F0) ->
  let w x y := block_dist tel x y * Ea x y in
  let perfect := Cmod (at2 F0 (N / 2) (N / 2)) ^ 2 in
  perfect = over_samples (tel_pr tel * bf) N w ^ 2 /\
  (forall j i, (j < N)%nat -> (i < N)%nat -> Cmod (at2 F j i) ^ 2 <= perfect) /\
  (0 < perfect -> perfect * (1 - weighted_variance (tel_pr tel * bf) N w (aperture_phase tel n K d_z wavel)) <= Cmod (at2 F (N / 2) (N / 2)) ^ 2).
Proof.
  intros HK HI HW H0 E E0 w perfect.
  destruct (gain_field illum tel I K d_z wavel N bf n Ea HK HI u v F E) as (C1 & B1).
  assert (HK0 : (2 * length (repeat 0%R (length K)) = (n + 1) * (n + 2))%nat) by (rewrite repeat_length; exact HK).
  destruct (gain_field illum tel I _ 0 wavel N bf n Ea HK0 HI u0 v0 F0 E0) as (C2 & _).
  assert (T : at2 F0 (N / 2) (N / 2) = RtoC (over_samples (tel_pr tel * bf) N w)).
  { rewrite C2. unfold RtoC. f_equal.
    - apply over_ext. intros x y. rewrite phase_flat by apply H0. rewrite cos_0. unfold w. ring.
    - rewrite (over_ext _ _ _ (fun x y => 0 * w x y)); [rewrite over_scal; ring|]. intros x y. rewrite phase_flat by apply H0. rewrite sin_0. unfold w. ring. }
  assert (HP : perfect = over_samples (tel_pr tel * bf) N w ^ 2) by (unfold perfect; rewrite T, Cmod_R, pow2_abs; reflexivity).
  split; [exact HP|]. split.
  - intros j i Hj Hi. rewrite HP. apply pow_incr. split; [apply Cmod_ge_0|].
    eapply Rle_trans; [apply B1; assumption|]. right. apply over_ext. intros x y. apply Rabs_right, Rle_ge, HW.
  - intros Hp. rewrite C1, HP. unfold Cmod. cbn [fst snd]. rewrite pow2_sqrt by (apply Rplus_le_le_0_compat; apply pow2_ge_0).
    apply vectors_samples; [exact HW|]. intros Z. rewrite HP in Hp. change (over_samples (tel_pr tel * bf) N w = 0) in Z. rewrite Z in Hp. cbn in Hp. lra.
Qed.
