(** Mirrored and transposed wavefronts and their patterns (C100). *)
From Coq Require Import List ZArith Lia Lra.
From Verif Require Import PyBase PyLib Sums Num MMath MAperture MTel MRad SZernike SRad SMirror PPolar PDisk PIllum PTel PAper PFft PRad PRad2 PFar PPhase PPhase2 PWave PGain2.
From Coquelicot Require Import Complex.
Import ListNotations.
Open Scope R_scope.

(** Whole turns and half turns. *)
Definition sgn (k : Z) : R := if Z.odd k then -1 else 1.
Lemma turns (k : Z) x : cos (IZR k * PI + x) = sgn k * cos x /\ sin (IZR k * PI + x) = sgn k * sin x.
Proof.
  unfold sgn. destruct (Z.Even_or_Odd k) as [[m ->]|[m ->]].
  - rewrite Z.odd_mul. cbn [Z.odd andb]. replace (IZR (2 * m) * PI + x) with (x + IZR m * (2 * PI)) by (rewrite mult_IZR; ring).
    rewrite cos_add_2kPI, sin_add_2kPI. lra.
  - rewrite Z.odd_add, Z.odd_mul. cbn [Z.odd andb xorb]. replace (IZR (2 * m + 1) * PI + x) with (x + PI + IZR m * (2 * PI)) by (rewrite plus_IZR, mult_IZR; ring).
    rewrite cos_add_2kPI, sin_add_2kPI, neg_cos, neg_sin. lra.
Qed.

(** The angular part under the three reflections. *)
Lemma circle_mirror_y i l rho t : circle i l rho (- t) = (if Z.ltb l 0 then -1 else 1) * circle i l rho t.
Proof.
  unfold circle. replace (IZR (Z.abs l) * - t) with (- (IZR (Z.abs l) * t)) by ring. rewrite cos_neg, sin_neg. destruct (Z.ltb l 0); ring.
Qed.
Lemma circle_mirror_x i l rho t : circle i l rho (PI - t) = (if xorb (Z.odd l) (Z.ltb l 0) then -1 else 1) * circle i l rho t.
Proof.
  unfold circle. replace (IZR (Z.abs l) * (PI - t)) with (IZR (Z.abs l) * PI + - (IZR (Z.abs l) * t)) by ring.
  destruct (turns (Z.abs l) (- (IZR (Z.abs l) * t))) as [-> ->]. rewrite cos_neg, sin_neg. unfold sgn.
  replace (Z.odd (Z.abs l)) with (Z.odd l) by (destruct l; reflexivity).
  destruct (Z.odd l), (Z.ltb l 0); cbn [xorb]; ring.
Qed.
Lemma circle_swap_even i l rho t : Z.odd l = false -> circle i l rho (PI / 2 - t) = sgn (Z.abs l / 2) * (if Z.ltb l 0 then -1 else 1) * circle i l rho t.
Proof.
  intros O. assert (O' : Z.odd (Z.abs l) = false) by (destruct l; exact O). set (a := Z.abs l) in *.
  assert (E : a = (2 * (a / 2))%Z). { rewrite (Z.div_mod a 2) at 1 by lia. rewrite Zmod_odd, O'. ring. }
  unfold circle. fold a. replace (IZR a * (PI / 2 - t)) with (IZR (a / 2) * PI + - (IZR a * t)).
  2:{ rewrite E at 2 3. rewrite mult_IZR. field. }
  destruct (turns (a / 2) (- (IZR a * t))) as [-> ->]. rewrite cos_neg, sin_neg. destruct (Z.ltb l 0); ring.
Qed.
Lemma circle_swap_odd i l rho t : Z.odd l = true -> circle i (- l) rho (PI / 2 - t) = sgn (Z.abs l / 2) * circle i l rho t.
Proof.
  intros O. assert (O' : Z.odd (Z.abs l) = true) by (destruct l; exact O). unfold circle. rewrite Z.abs_opp. set (a := Z.abs l) in *.
  assert (E : a = (2 * (a / 2) + 1)%Z). { rewrite (Z.div_mod a 2) at 1 by lia. rewrite Zmod_odd, O'. ring. }
  replace (IZR a * (PI / 2 - t)) with (IZR (a / 2) * PI + (PI / 2 - IZR a * t)).
  2:{ rewrite E at 2 3. rewrite plus_IZR, mult_IZR. field. }
  destruct (turns (a / 2) (PI / 2 - IZR a * t)) as [-> ->]. rewrite cos_shift, sin_shift.
  assert (N0 : l <> 0%Z) by (intros ->; discriminate).
  destruct (Z.ltb_spec l 0), (Z.ltb_spec (- l) 0); try lia; ring.
Qed.

(** The series. *)
Lemma series_mirror_y n c rho t : zernike_series n (mirrored_y c) rho t = zernike_series n c rho (- t).
Proof.
  unfold zernike_series. apply sum_upto_ext. intros i Hi. apply sum_upto_ext. intros k Hk. cbv zeta. rewrite circle_mirror_y. unfold mirrored_y.
  destruct (Z.ltb _ 0); ring.
Qed.
Lemma series_mirror_x n c rho t : zernike_series n (mirrored_x c) rho t = zernike_series n c rho (PI - t).
Proof.
  unfold zernike_series. apply sum_upto_ext. intros i Hi. apply sum_upto_ext. intros k Hk. cbv zeta. rewrite circle_mirror_x. unfold mirrored_x.
  destruct (xorb _ _); ring.
Qed.
Lemma sum_upto_rev n f : sum_upto n f = sum_upto n (fun k => f (n - k)%nat).
Proof. rewrite !sum_upto_Rsum. rewrite Rsum_rev. apply Rsum_ext. intros i Hi. f_equal. lia. Qed.
Lemma series_transposed n c rho t : zernike_series n (transposed c) rho t = zernike_series n c rho (PI / 2 - t).
Proof.
  unfold zernike_series. apply sum_upto_ext. intros i Hi.
  assert (P : forall k, Z.odd (2 * Z.of_nat k - Z.of_nat i) = Z.odd (Z.of_nat i)).
  { intros k. rewrite Z.odd_sub, Z.odd_mul. cbn [Z.odd andb]. destruct (Z.odd (Z.of_nat i)); reflexivity. }
  destruct (Z.odd (Z.of_nat i)) eqn:O.
  - etransitivity; [|symmetry; apply sum_upto_rev].
    apply sum_upto_ext. intros k Hk. cbv zeta. set (l := (2 * Z.of_nat k - Z.of_nat i)%Z).
    replace (2 * Z.of_nat (i - k) - Z.of_nat i)%Z with (- l)%Z by (unfold l; lia).
    rewrite circle_swap_odd by apply P. unfold transposed. rewrite (P k : Z.odd l = true). cbv zeta. fold (sgn (Z.abs l / 2)). ring.
  - apply sum_upto_ext. intros k Hk. cbv zeta. rewrite circle_swap_even by apply P. unfold transposed. rewrite P. cbv zeta. unfold mirrored_y.
    set (l := (2 * Z.of_nat k - Z.of_nat i)%Z). fold (sgn (Z.abs l / 2)). destruct (Z.ltb l 0); ring.
Qed.

(** Polar angles of the reflected points. *)
Lemma reflect_polar x y x' y' t : x' ^ 2 + y' ^ 2 = x ^ 2 + y ^ 2 ->
  sqrt (x ^ 2 + y ^ 2) * cos t = x' -> sqrt (x ^ 2 + y ^ 2) * sin t = y' -> sqrt (x ^ 2 + y ^ 2) <> 0 ->
  cos t = cos (arctan2 y' x') /\ sin t = sin (arctan2 y' x').
Proof.
  intros H C S N0. pose proof (cart2pol_cos x' y') as C2. pose proof (cart2pol_sin x' y') as S2. rewrite H in C2, S2.
  split; apply (Rmult_eq_reg_l (sqrt (x ^ 2 + y ^ 2))); congruence.
Qed.
Lemma reflect_series n c pr x y x' y' t : pr <> 0 -> x' ^ 2 + y' ^ 2 = x ^ 2 + y ^ 2 ->
  sqrt (x ^ 2 + y ^ 2) * cos t = x' -> sqrt (x ^ 2 + y ^ 2) * sin t = y' ->
  zernike_series n c (sqrt (x ^ 2 + y ^ 2) / pr) t = zernike_series n c (sqrt (x' ^ 2 + y' ^ 2) / pr) (arctan2 y' x').
Proof.
  intros Hp H C S. rewrite H. apply series_polar. intros N0. apply (reflect_polar x y); trivial.
  intros Z. apply N0. rewrite Z. unfold Rdiv. ring.
Qed.

Section Field.
Variables (tel : telgeo) (Ea : R -> R -> R) (n : nat) (K K' : list R) (d_z wavel : R).
Hypothesis Hp : 0 < tel_pr tel.
Let E := aperture_field tel Ea n K d_z wavel.
Let E' := aperture_field tel Ea n K' d_z wavel.

Lemma field_mirror_y : (forall i l, (i <= n)%nat -> admissible (Z.of_nat i) l -> coeff_of K' i l = mirrored_y (coeff_of K) i l) ->
  (forall x y, block_dist tel x (- y) = block_dist tel x y) -> (forall x y, Ea x (- y) = Ea x y) ->
  (forall x y, opd_func tel x (- y) d_z = opd_func tel x y d_z) -> forall x y, E' x y = E x (- y).
Proof.
  intros HK HB HE HO x y. unfold E, E', aperture_field. rewrite HB, HE, HO. f_equal. f_equal. f_equal. f_equal.
  rewrite (series_ext n (coeff_of K') (mirrored_y (coeff_of K))) by exact HK. rewrite series_mirror_y.
  apply (reflect_series n _ _ x y x (- y)); [lra|ring| |]; rewrite ?cos_neg, ?sin_neg; [apply cart2pol_cos|].
  rewrite Ropp_mult_distr_r_reverse, cart2pol_sin. reflexivity.
Qed.
Lemma field_mirror_x : (forall i l, (i <= n)%nat -> admissible (Z.of_nat i) l -> coeff_of K' i l = mirrored_x (coeff_of K) i l) ->
  (forall x y, block_dist tel (- x) y = block_dist tel x y) -> (forall x y, Ea (- x) y = Ea x y) ->
  (forall x y, opd_func tel (- x) y d_z = opd_func tel x y d_z) -> forall x y, E' x y = E (- x) y.
Proof.
  intros HK HB HE HO x y. unfold E, E', aperture_field. rewrite HB, HE, HO. f_equal. f_equal. f_equal. f_equal.
  rewrite (series_ext n (coeff_of K') (mirrored_x (coeff_of K))) by exact HK. rewrite series_mirror_x.
  apply (reflect_series n _ _ x y (- x) y); [lra|ring| |].
  - replace (PI - arctan2 y x) with (- arctan2 y x + PI) by ring. rewrite neg_cos, cos_neg, Ropp_mult_distr_r_reverse, cart2pol_cos. reflexivity.
  - replace (PI - arctan2 y x) with (- arctan2 y x + PI) by ring. rewrite neg_sin, sin_neg, Ropp_involutive. apply cart2pol_sin.
Qed.
Lemma field_transposed : (forall i l, (i <= n)%nat -> admissible (Z.of_nat i) l -> coeff_of K' i l = transposed (coeff_of K) i l) ->
  (forall x y, block_dist tel y x = block_dist tel x y) -> (forall x y, Ea y x = Ea x y) ->
  (forall x y, opd_func tel y x d_z = opd_func tel x y d_z) -> forall x y, E' x y = E y x.
Proof.
  intros HK HB HE HO x y. unfold E, E', aperture_field. rewrite (HB x y), (HE x y), (HO x y). f_equal. f_equal. f_equal. f_equal.
  rewrite (series_ext n (coeff_of K') (transposed (coeff_of K))) by exact HK. rewrite series_transposed.
  apply (reflect_series n _ _ x y y x); [lra|ring| |].
  - rewrite cos_shift. apply cart2pol_sin.
  - rewrite sin_shift. apply cart2pol_cos.
Qed.
End Field.

(** The far field of a reflected aperture. *)
Lemma sample_neg box N i : (2 <= N)%nat -> (i < N)%nat -> sample box N (N - 1 - i) = - sample box N i.
Proof. intros HN Hi. rewrite <- !gx_sample by exact HN. apply gx_neg; assumption. Qed.
Lemma far_mirror_y E E' box N wavel u v : (2 <= N)%nat -> (forall x y, E' x y = E x (- y)) -> far_field E' box N wavel u v = far_field E box N wavel u (- v).
Proof.
  intros HN H. unfold far_field. rewrite Csum_rev. apply Csum_ext. intros j Hj. apply Csum_ext. intros i Hi. rewrite sample_neg by assumption. rewrite H, Ropp_involutive.
  f_equal. f_equal. f_equal. f_equal. unfold Rdiv. ring.
Qed.
Lemma far_mirror_x E E' box N wavel u v : (2 <= N)%nat -> (forall x y, E' x y = E (- x) y) -> far_field E' box N wavel u v = far_field E box N wavel (- u) v.
Proof.
  intros HN H. unfold far_field. apply Csum_ext. intros j Hj. rewrite Csum_rev. apply Csum_ext. intros i Hi. rewrite sample_neg by assumption. rewrite H, Ropp_involutive.
  f_equal. f_equal. f_equal. f_equal. unfold Rdiv. ring.
Qed.
Lemma far_transposed E E' box N wavel u v : (forall x y, E' x y = E y x) -> far_field E' box N wavel u v = far_field E box N wavel v u.
Proof.
  intros H. unfold far_field. rewrite Csum_swap. apply Csum_ext. intros j Hj. apply Csum_ext. intros i Hi. rewrite H. f_equal. f_equal. f_equal. f_equal. f_equal. ring.
Qed.

Lemma far_mod illum tel I K d_z wavel N bf n Ea u v F : 0 < wavel -> 0 < tel_pr tel -> 0 < bf ->
  (2 * length K = (n + 1) * (n + 2))%nat -> illum I (tel_pr tel) = Ok Ea -> radiation_pattern illum tel I K d_z wavel N bf = Ok (u, v, F) ->
  (2 <= N)%nat /\ let h := wavel * (INR N - 1) / (2 * (bf * tel_pr tel) * INR N) in
  forall r c, (r < N)%nat -> (c < N)%nat -> Cmod (at2 F r c) =
    Cmod (far_field (aperture_field tel Ea n K d_z wavel) (tel_pr tel * bf) N wavel ((INR c - INR (N / 2)) * h) ((INR r - INR (N / 2)) * h)).
Proof.
  intros Hw Hp Hb HK HI E. destruct (rad_inv _ _ _ _ _ _ _ _ _ _ _ E) as (HN & _). split; [exact HN|]. intros h r c Hr Hc.
  destruct (far_field_api illum tel I K d_z wavel N bf n Ea Hw Hp Hb HN HK HI) as (u' & v' & F' & E2 & _ & _ & G). rewrite E in E2. injection E2 as <- <- <-.
  destruct (axes_api _ _ _ _ _ _ _ _ _ _ _ Hw Hp Hb E) as (Euv & _ & _ & _ & _ & A). cbv zeta in A. destruct A as (_ & An & _). fold h in An. subst v.
  destruct (G r c Hr Hc) as (_ & GM). cbv zeta in GM. rewrite GM. rewrite !An by assumption. reflexivity.
Qed.

Section Pattern.
Variables (illum : list R -> R -> res (R -> R -> R)) (tel : telgeo) (I K K' : list R) (d_z wavel : R) (N : nat) (bf : R) (n : nat) (Ea : R -> R -> R) (u v u' v' : list R) (F F' : list (list C)).
Hypothesis (Hw : 0 < wavel) (Hp : 0 < tel_pr tel) (Hb : 0 < bf) (HK : (2 * length K = (n + 1) * (n + 2))%nat) (HL : length K' = length K) (HI : illum I (tel_pr tel) = Ok Ea).
Hypothesis (HF : radiation_pattern illum tel I K d_z wavel N bf = Ok (u, v, F)) (HF' : radiation_pattern illum tel I K' d_z wavel N bf = Ok (u', v', F')).
Let HK' : (2 * length K' = (n + 1) * (n + 2))%nat.
Proof. rewrite HL. exact HK. Qed.

Lemma pattern_mirror_y : (forall i l, (i <= n)%nat -> admissible (Z.of_nat i) l -> coeff_of K' i l = mirrored_y (coeff_of K) i l) ->
  (forall x y, block_dist tel x (- y) = block_dist tel x y) -> (forall x y, Ea x (- y) = Ea x y) ->
  (forall x y, opd_func tel x (- y) d_z = opd_func tel x y d_z) ->
  forall r r' c, (r < N)%nat -> (r' < N)%nat -> (c < N)%nat -> (r + r' = 2 * (N / 2))%nat -> Cmod (at2 F' r c) ^ 2 = Cmod (at2 F r' c) ^ 2.
Proof.
  intros H1 H2 H3 H4 r r' c Hr Hr' Hc Hs.
  destruct (far_mod _ _ _ _ _ _ _ _ _ _ _ _ _ Hw Hp Hb HK HI HF) as (HN & G). destruct (far_mod _ _ _ _ _ _ _ _ _ _ _ _ _ Hw Hp Hb HK' HI HF') as (_ & G').
  rewrite G, G' by assumption. f_equal. f_equal.
  rewrite (far_mirror_y _ _ _ _ _ _ _ HN (field_mirror_y tel Ea n K K' d_z wavel Hp H1 H2 H3 H4)). f_equal.
  apply (f_equal INR) in Hs. rewrite plus_INR, mult_INR in Hs. cbn [INR] in Hs. replace (INR r) with (2 * INR (N / 2) - INR r') by lra. ring.
Qed.
Lemma pattern_mirror_x : (forall i l, (i <= n)%nat -> admissible (Z.of_nat i) l -> coeff_of K' i l = mirrored_x (coeff_of K) i l) ->
  (forall x y, block_dist tel (- x) y = block_dist tel x y) -> (forall x y, Ea (- x) y = Ea x y) ->
  (forall x y, opd_func tel (- x) y d_z = opd_func tel x y d_z) ->
  forall r c c', (r < N)%nat -> (c < N)%nat -> (c' < N)%nat -> (c + c' = 2 * (N / 2))%nat -> Cmod (at2 F' r c) ^ 2 = Cmod (at2 F r c') ^ 2.
Proof.
  intros H1 H2 H3 H4 r c c' Hr Hc Hc' Hs.
  destruct (far_mod _ _ _ _ _ _ _ _ _ _ _ _ _ Hw Hp Hb HK HI HF) as (HN & G). destruct (far_mod _ _ _ _ _ _ _ _ _ _ _ _ _ Hw Hp Hb HK' HI HF') as (_ & G').
  rewrite G, G' by assumption. f_equal. f_equal.
  rewrite (far_mirror_x _ _ _ _ _ _ _ HN (field_mirror_x tel Ea n K K' d_z wavel Hp H1 H2 H3 H4)). f_equal.
  apply (f_equal INR) in Hs. rewrite plus_INR, mult_INR in Hs. cbn [INR] in Hs. replace (INR c) with (2 * INR (N / 2) - INR c') by lra. ring.
Qed.
Lemma pattern_transposed : (forall i l, (i <= n)%nat -> admissible (Z.of_nat i) l -> coeff_of K' i l = transposed (coeff_of K) i l) ->
  (forall x y, block_dist tel y x = block_dist tel x y) -> (forall x y, Ea y x = Ea x y) ->
  (forall x y, opd_func tel y x d_z = opd_func tel x y d_z) ->
  forall r c, (r < N)%nat -> (c < N)%nat -> Cmod (at2 F' r c) ^ 2 = Cmod (at2 F c r) ^ 2.
Proof.
  intros H1 H2 H3 H4 r c Hr Hc.
  destruct (far_mod _ _ _ _ _ _ _ _ _ _ _ _ _ Hw Hp Hb HK HI HF) as (HN & G). destruct (far_mod _ _ _ _ _ _ _ _ _ _ _ _ _ Hw Hp Hb HK' HI HF') as (_ & G').
  rewrite G, G' by assumption. f_equal. f_equal.
  apply (far_transposed _ _ _ _ _ _ _ (field_transposed tel Ea n K K' d_z wavel Hp H1 H2 H3 H4)).
Qed.
End Pattern.

Lemma dish_symmetric pr sr a L alpha Fp Ff i_amp c_dB q d Ea x y : illum_parabolic [i_amp; c_dB; q; 0; 0] pr = Ok Ea ->
  let sym (f : R -> R -> R) := f x (- y) = f x y /\ f (- x) y = f x y /\ f y x = f x y in
  sym (block_manual pr sr a L) /\ sym (block_effelsberg alpha) /\ sym (fun x y => opd_manual Fp Ff x y d) /\ sym Ea.
Proof.
  intros E sym. destruct (block_manual_sym pr sr a L x y) as (A1 & A2 & A3). destruct (block_effelsberg_sym alpha x y) as (B1 & B2 & B3).
  split; [split; [exact A2|split; [exact A1|exact A3]]|]. split; [split; [exact B2|split; [exact B1|exact B3]]|].
  unfold illum_parabolic in E. cbv zeta in E. apply Ok_inj in E. rewrite <- E. unfold sym, opd_manual. cbv beta.
  assert (S1 : x ^ 2 + (- y) ^ 2 = x ^ 2 + y ^ 2) by ring. assert (S2 : (- x) ^ 2 + y ^ 2 = x ^ 2 + y ^ 2) by ring. assert (S3 : y ^ 2 + x ^ 2 = x ^ 2 + y ^ 2) by ring.
  rewrite !Rminus_0_r. rewrite S1, S2, S3. repeat split; reflexivity.
Qed.
