(** Property theorems C27-C29: illumination functions and pyoof.aperture.aperture. *)
From Verif Require Import PyBase PyLib Num MMath MAperture MTel MRad PIllum PAper SZernike.
From Coquelicot Require Import Complex.
Open Scope R_scope.

(** C27. Peak, edge taper in decibel, monotone, range. *)
Theorem C27_parabolic i_amp c_dB q x0 y0 pr Ea : 0 < pr -> 0 < q -> c_dB < 0 -> 0 < i_amp ->
  illum_parabolic [i_amp; c_dB; q; x0; y0] pr = Ok Ea ->
  let d2 x y := (x - x0) ^ 2 + (y - y0) ^ 2 in
  Ea x0 y0 = i_amp /\
  (forall x y, d2 x y = pr ^ 2 -> 20 * (ln (Ea x y / i_amp) / ln 10) = c_dB) /\
  (forall x y x' y', d2 x y < d2 x' y' <= pr ^ 2 -> Ea x' y' < Ea x y) /\
  (forall x y, d2 x y <= pr ^ 2 -> i_amp * Rpower 10 (c_dB / 20) <= Ea x y <= i_amp).
Proof. exact (par_api i_amp c_dB q x0 y0 pr Ea). Qed.
Print Assumptions C27_parabolic.
(** Beyond the rim: 0 for a non-integer exponent ... *)
Theorem C27_beyond_rim i_amp c_dB q x0 y0 pr Ea x y : 0 < pr -> (forall k : Z, q <> IZR k) ->
  illum_parabolic [i_amp; c_dB; q; x0; y0] pr = Ok Ea -> pr ^ 2 < (x - x0) ^ 2 + (y - y0) ^ 2 -> Ea x y = 0.
Proof. exact (par_beyond i_amp c_dB q x0 y0 pr Ea x y). Qed.
Print Assumptions C27_beyond_rim.
(** ... but the polynomial goes on for an integer one, and exceeds the peak. *)
Theorem C27_beyond_rim_integer i_amp c_dB (k : Z) x0 y0 pr Ea x y : 0 < pr -> illum_parabolic [i_amp; c_dB; IZR k; x0; y0] pr = Ok Ea ->
  pr ^ 2 < (x - x0) ^ 2 + (y - y0) ^ 2 ->
  Ea x y = i_amp * (Rpower 10 (c_dB / 20) + (1 - Rpower 10 (c_dB / 20)) * powerRZ (1 - ((x - x0) ^ 2 + (y - y0) ^ 2) / pr ^ 2) k).
Proof. exact (par_beyond_int i_amp c_dB k x0 y0 pr Ea x y). Qed.
Print Assumptions C27_beyond_rim_integer.
Theorem C27_beyond_rim_refuted : exists I pr Ea x y, illum_parabolic I pr = Ok Ea /\ I = [1; -14; 2; 0; 0] /\ pr = 50 /\
  pr ^ 2 < x ^ 2 + y ^ 2 /\ 1 < Ea x y.
Proof. exact par_beyond_refuted. Qed.
Print Assumptions C27_beyond_rim_refuted.
Theorem C27_arity I pr : (length I = 5%nat -> exists Ea, illum_parabolic I pr = Ok Ea) /\ (length I <> 5%nat -> illum_parabolic I pr = Err ValueError).
Proof. exact (par_arity I pr). Qed.
Print Assumptions C27_arity.
Example C27_nonvacuous : 0 < 50 /\ 0 < 3 / 2 /\ -14 < 0 /\ (forall k : Z, 3 / 2 <> IZR k) /\ (exists Ea, illum_parabolic [1; -14; 3 / 2; 0; 0] 50 = Ok Ea).
Proof.
  repeat match goal with |- _ < _ /\ _ => split; [lra|] end. split; [|eexists; reflexivity].
  intros k E. assert (3 = 2 * k)%Z by (apply eq_IZR; rewrite mult_IZR; lra). lia.
Qed.

(** C28. *)
Theorem C28_gauss i_amp c_dB x0 y0 pr : 0 < pr -> 0 < i_amp -> exists Ea, illum_gauss [i_amp; c_dB; x0; y0] pr = Ok Ea /\
  let d2 x y := (x - x0) ^ 2 + (y - y0) ^ 2 in
  let sigma := Rpower 10 (c_dB / 20) in
  Ea x0 y0 = i_amp * (sqrt (2 * PI) * sigma) /\
  (forall x y, 0 < Ea x y <= Ea x0 y0) /\
  (forall x y x' y', d2 x y < d2 x' y' -> Ea x' y' < Ea x y) /\
  (forall x y, d2 x y = (sigma * pr) ^ 2 -> Ea x y = Ea x0 y0 * exp (- (1 / 2))).
Proof. exact (gauss_api i_amp c_dB x0 y0 pr). Qed.
Print Assumptions C28_gauss.
Theorem C28_ignores_q i_amp c_dB q x0 y0 pr : illum_gauss [i_amp; c_dB; q; x0; y0] pr = illum_gauss [i_amp; c_dB; x0; y0] pr.
Proof. exact (gauss_five i_amp c_dB q x0 y0 pr). Qed.
Print Assumptions C28_ignores_q.
(** Fewer than two coefficients are refused; of more, the first two and the last two count. *)
Theorem C28_arity I pr : ((length I < 2)%nat -> illum_gauss I pr = Err ValueError) /\
  ((2 <= length I)%nat -> illum_gauss I pr = illum_gauss [nth 0 I 0; nth 1 I 0; nth (length I - 2) I 0; nth (length I - 1) I 0] pr /\ exists Ea, illum_gauss I pr = Ok Ea).
Proof. exact (conj (gauss_arity I pr) (gauss_any I pr)). Qed.
Print Assumptions C28_arity.
Example C28_nonvacuous : 0 < 50 /\ 0 < 1 /\ exists x y, (x - 0) ^ 2 + (y - 0) ^ 2 = (Rpower 10 (-14 / 20) * 50) ^ 2.
Proof. split; [lra|]. split; [lra|]. exists (Rpower 10 (-14 / 20) * 50), 0. ring. Qed.

(** C29. Exact value, so that the modulus depends on blockage and illumination only. *)
Theorem C29_value illum tel I K d_z wavel n Ea : (2 * length K = (n + 1) * (n + 2))%nat -> illum I (tel_pr tel) = Ok Ea ->
  exists E, aperture illum tel I K d_z wavel = Ok E /\ forall x y, E x y = Cmult (RtoC (block_dist tel x y * Ea x y))
    (cis (2 * PI * (zernike_series n (coeff_of K) (sqrt (x ^ 2 + y ^ 2) / tel_pr tel) (arctan2 y x) + opd_func tel x y d_z / wavel))).
Proof. exact (aperture_ok illum tel I K d_z wavel n Ea). Qed.
Print Assumptions C29_value.
Theorem C29_modulus illum tel I K d_z wavel E : aperture illum tel I K d_z wavel = Ok E ->
  exists Ea, illum I (tel_pr tel) = Ok Ea /\ forall x y, Cmod (E x y) = Rabs (block_dist tel x y * Ea x y) /\ (block_dist tel x y = 0 -> E x y = RtoC 0).
Proof. exact (aperture_modulus illum tel I K d_z wavel E). Qed.
Print Assumptions C29_modulus.
Theorem C29_piston illum tel I k k' K d_z wavel E E' :
  aperture illum tel I (k :: K) d_z wavel = Ok E -> aperture illum tel I (k' :: K) d_z wavel = Ok E' ->
  forall x y, E' x y = Cmult (cis (2 * PI * (k' - k))) (E x y).
Proof. exact (aperture_piston illum tel I k k' K d_z wavel E E'). Qed.
Print Assumptions C29_piston.
Theorem C29_conjugate illum tel I K d_z wavel E E' : (forall x y d, opd_func tel x y (- d) = - opd_func tel x y d) ->
  aperture illum tel I K d_z wavel = Ok E -> aperture illum tel I (map Ropp K) (- d_z) wavel = Ok E' ->
  forall x y, E' x y = Cconj (E x y).
Proof. exact (aperture_conj illum tel I K d_z wavel E E'). Qed.
Print Assumptions C29_conjugate.
Definition tel29 : telgeo := {| block_dist := block_manual 50 3 1 20; opd_func := opd_manual 30 300; tel_pr := 50 |}.
Example C29_nonvacuous : (2 * length [1; 2; 3] = (1 + 1) * (1 + 2))%nat /\
  (exists E, aperture illum_parabolic tel29 [1; -14; 2; 0; 0] [1; 2; 3] (1 / 50) (1 / 100) = Ok E) /\
  (exists E, aperture illum_parabolic tel29 [1; -14; 2; 0; 0] (map Ropp [1; 2; 3]) (- (1 / 50)) (1 / 100) = Ok E) /\
  (forall x y d, opd_func tel29 x y (- d) = - opd_func tel29 x y d).
Proof.
  split; [reflexivity|].
  assert (HI : exists Ea, illum_parabolic [1; -14; 2; 0; 0] (tel_pr tel29) = Ok Ea) by (eexists; reflexivity). destruct HI as [Ea HI].
  split; [|split].
  - destruct (aperture_ok illum_parabolic tel29 _ [1; 2; 3] (1 / 50) (1 / 100) 1 Ea eq_refl HI) as (E & HE & _). exists E. exact HE.
  - destruct (aperture_ok illum_parabolic tel29 _ (map Ropp [1; 2; 3]) (- (1 / 50)) (1 / 100) 1 Ea eq_refl HI) as (E & HE & _). exists E. exact HE.
  - intros. cbn. unfold opd_manual. cbv zeta. ring.
Qed.
