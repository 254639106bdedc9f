(** C27, C28: illumination functions. *)
From Verif Require Import PyBase PyLib Num MMath MAperture.
Open Scope R_scope.

Definition par_value (i_amp c_dB q pr s : R) : R :=
  let c := Rpower 10 (c_dB / 20) in i_amp * (c + (1 - c) * Rpower (1 - s / pr ^ 2) q).

Lemma sq_div_sqrt s pr : 0 <= s -> pr <> 0 -> (sqrt s / pr) ^ 2 = s / pr ^ 2.
Proof. intros Hs Hk. rewrite <- (pow2_sqrt s Hs) at 2. field. assumption. Qed.

Lemma dist2_nonneg x y : 0 <= x ^ 2 + y ^ 2. Proof. nra. Qed.

Lemma npow_pos b q : 0 < b -> npow b q = Fin (Rpower b q).
Proof. intros H. unfold npow. destruct (Rlt_dec 0 b); [reflexivity|contradiction]. Qed.
Lemma npow_0 q : 0 < q -> npow 0 q = Fin 0.
Proof. intros H. unfold npow. destruct (Rlt_dec 0 0); [lra|]. destruct (Req_EM_T 0 0); [|lra]. destruct (Rlt_dec 0 q); [reflexivity|lra]. Qed.
Lemma npow_neg_nonint b q : b < 0 -> (forall k : Z, q <> IZR k) -> npow b q = NaN.
Proof.
  intros H Hq. unfold npow. destruct (Rlt_dec 0 b); [lra|]. destruct (Req_EM_T b 0); [lra|].
  unfold is_integer. destruct (Req_EM_T (IZR (Int_part q)) q) as [E|_]; [|reflexivity]. exfalso. exact (Hq _ (eq_sym E)).
Qed.
Lemma Int_part_IZR k : Int_part (IZR k) = k.
Proof.
  unfold Int_part. assert (E : (k + 1)%Z = up (IZR k)) by (apply tech_up; rewrite plus_IZR; lra). rewrite <- E. lia.
Qed.
Lemma npow_neg_int b (k : Z) : b < 0 -> npow b (IZR k) = Fin (powerRZ b k).
Proof.
  intros H. unfold npow. destruct (Rlt_dec 0 b); [lra|]. destruct (Req_EM_T b 0); [lra|].
  unfold is_integer. rewrite Int_part_IZR. destruct (Req_EM_T (IZR k) (IZR k)); [reflexivity|congruence].
Qed.

Lemma par_inside i_amp c_dB q x0 y0 pr Ea x y : 0 < pr -> illum_parabolic [i_amp; c_dB; q; x0; y0] pr = Ok Ea ->
  (x - x0) ^ 2 + (y - y0) ^ 2 < pr ^ 2 -> Ea x y = par_value i_amp c_dB q pr ((x - x0) ^ 2 + (y - y0) ^ 2).
Proof.
  intros Hpr E H. unfold illum_parabolic in E. apply Ok_inj in E. subst Ea. cbv zeta.
  rewrite sq_div_sqrt by (first [apply dist2_nonneg|lra]).
  assert (Hb : 0 < 1 - ((x - x0) ^ 2 + (y - y0) ^ 2) / pr ^ 2).
  { assert (0 < pr ^ 2) by nra. apply Rmult_lt_reg_r with (pr ^ 2); [assumption|]. unfold Rminus at 1. rewrite Rmult_plus_distr_r, <- Ropp_mult_distr_l. unfold Rdiv. rewrite Rmult_assoc, Rinv_l by lra. lra. }
  rewrite npow_pos by assumption. reflexivity.
Qed.

Lemma par_rim i_amp c_dB q x0 y0 pr Ea x y : 0 < pr -> 0 < q -> illum_parabolic [i_amp; c_dB; q; x0; y0] pr = Ok Ea ->
  (x - x0) ^ 2 + (y - y0) ^ 2 = pr ^ 2 -> Ea x y = i_amp * Rpower 10 (c_dB / 20).
Proof.
  intros Hpr Hq E H. unfold illum_parabolic in E. apply Ok_inj in E. subst Ea. cbv zeta.
  rewrite sq_div_sqrt by (first [apply dist2_nonneg|lra]). rewrite H.
  replace (1 - pr ^ 2 / pr ^ 2) with 0 by (field; lra). rewrite npow_0 by assumption. cbn. ring.
Qed.

Lemma par_beyond i_amp c_dB q x0 y0 pr Ea x y : 0 < pr -> (forall k : Z, q <> IZR k) -> illum_parabolic [i_amp; c_dB; q; x0; y0] pr = Ok Ea ->
  pr ^ 2 < (x - x0) ^ 2 + (y - y0) ^ 2 -> Ea x y = 0.
Proof.
  intros Hpr Hq E H. unfold illum_parabolic in E. apply Ok_inj in E. subst Ea. cbv zeta.
  rewrite sq_div_sqrt by (first [apply dist2_nonneg|lra]).
  rewrite npow_neg_nonint; [reflexivity| |assumption].
  assert (0 < pr ^ 2) by nra. apply Rmult_lt_reg_r with (pr ^ 2); [assumption|]. unfold Rminus at 1. rewrite Rmult_plus_distr_r, <- Ropp_mult_distr_l. unfold Rdiv. rewrite Rmult_assoc, Rinv_l by lra. lra.
Qed.

Lemma par_beyond_int i_amp c_dB (k : Z) x0 y0 pr Ea x y : 0 < pr -> illum_parabolic [i_amp; c_dB; IZR k; x0; y0] pr = Ok Ea ->
  pr ^ 2 < (x - x0) ^ 2 + (y - y0) ^ 2 ->
  Ea x y = i_amp * (Rpower 10 (c_dB / 20) + (1 - Rpower 10 (c_dB / 20)) * powerRZ (1 - ((x - x0) ^ 2 + (y - y0) ^ 2) / pr ^ 2) k).
Proof.
  intros Hpr E H. unfold illum_parabolic in E. apply Ok_inj in E. subst Ea. cbv zeta.
  rewrite sq_div_sqrt by (first [apply dist2_nonneg|lra]).
  rewrite npow_neg_int; [reflexivity|].
  assert (0 < pr ^ 2) by nra. apply Rmult_lt_reg_r with (pr ^ 2); [assumption|]. unfold Rminus at 1. rewrite Rmult_plus_distr_r, <- Ropp_mult_distr_l. unfold Rdiv. rewrite Rmult_assoc, Rinv_l by lra. lra.
Qed.

(** With the integer exponent q = 2 the level outside the dish grows without bound. *)
Lemma par_beyond_refuted : exists I pr Ea x y, illum_parabolic I pr = Ok Ea /\ I = [1; -14; 2; 0; 0] /\ pr = 50 /\
  pr ^ 2 < x ^ 2 + y ^ 2 /\ 1 < Ea x y.
Proof.
  assert (exists Ea, illum_parabolic [1; -14; 2; 0; 0] 50 = Ok Ea) as [Ea EE] by (eexists; reflexivity).
  exists [1; -14; 2; 0; 0], 50, Ea, 100, 0.
  split; [exact EE|]. split; [reflexivity|]. split; [reflexivity|]. split; [lra|].
  rewrite (par_beyond_int 1 (-14) 2 0 0 50 Ea 100 0); [|lra|exact EE|lra].
  cbn [powerRZ]. replace (Pos.to_nat 2) with 2%nat by reflexivity.
  replace ((1 - ((100 - 0) ^ 2 + (0 - 0) ^ 2) / 50 ^ 2)) with (-3) by field.
  assert (Rpower 10 (-14 / 20) < 1).
  { unfold Rpower. rewrite <- exp_0. apply exp_increasing. assert (0 < ln 10) by (rewrite <- ln_1; apply ln_increasing; lra). lra. }
  nra.
Qed.

Lemma c_dB_pos c : 0 < Rpower 10 (c / 20). Proof. apply exp_pos. Qed.
Lemma ln10_pos : 0 < ln 10. Proof. rewrite <- ln_1; apply ln_increasing; lra. Qed.
Lemma c_dB_lt1 c : c < 0 -> Rpower 10 (c / 20) < 1.
Proof. intros H. unfold Rpower. rewrite <- exp_0. apply exp_increasing. pose proof ln10_pos. nra. Qed.

(** level in decibel of a field amplitude against a reference *)
Lemma dB_level a c : a <> 0 -> 20 * (ln (a * Rpower 10 (c / 20) / a) / ln 10) = c.
Proof.
  intros H. replace (a * Rpower 10 (c / 20) / a) with (Rpower 10 (c / 20)) by (field; assumption).
  unfold Rpower. rewrite ln_exp. pose proof ln10_pos. field. lra.
Qed.

Lemma Rpower_0_1 b q : 0 < b < 1 -> 0 < q -> 0 < Rpower b q < 1.
Proof.
  intros Hb Hq. split; [apply exp_pos|]. unfold Rpower. rewrite <- exp_0. apply exp_increasing.
  assert (ln b < 0) by (rewrite <- ln_1; apply ln_increasing; lra). nra.
Qed.

Lemma par_decreasing i_amp c_dB q pr s s' : 0 < i_amp -> c_dB < 0 -> 0 < q -> 0 < pr -> 0 <= s < s' -> s' < pr ^ 2 ->
  i_amp * Rpower 10 (c_dB / 20) < par_value i_amp c_dB q pr s' < par_value i_amp c_dB q pr s /\ par_value i_amp c_dB q pr s <= i_amp.
Proof.
  intros Hi Hc Hq Hp Hs Hs'. unfold par_value. cbv zeta. pose proof (c_dB_pos c_dB). pose proof (c_dB_lt1 c_dB Hc).
  set (c := Rpower 10 (c_dB / 20)) in *.
  assert (Hpp : 0 < pr ^ 2) by nra.
  assert (B : 0 < 1 - s' / pr ^ 2 < 1 - s / pr ^ 2).
  { assert (s' / pr ^ 2 < 1) by (apply Rmult_lt_reg_r with (pr ^ 2); [assumption|]; unfold Rdiv; rewrite Rmult_assoc, Rinv_l by lra; lra).
    assert (s / pr ^ 2 < s' / pr ^ 2) by (apply Rmult_lt_compat_r; [apply Rinv_0_lt_compat; assumption|lra]). lra. }
  assert (B1 : 1 - s / pr ^ 2 <= 1).
  { assert (0 <= s / pr ^ 2) by (apply Rmult_le_pos; [lra|left; apply Rinv_0_lt_compat; assumption]). lra. }
  set (b := 1 - s / pr ^ 2) in *. set (b' := 1 - s' / pr ^ 2) in *.
  assert (P0 : 0 < Rpower b' q) by apply exp_pos.
  assert (P1 : Rpower b' q < Rpower b q).
  { apply Rlt_Rpower_l; lra. }
  assert (P2 : Rpower b q <= 1).
  { destruct (Req_dec b 1) as [->|]; [unfold Rpower; rewrite ln_1, Rmult_0_r, exp_0; lra|]. left. apply Rpower_0_1; lra. }
  set (p := Rpower b q) in *. set (p' := Rpower b' q) in *. clearbody p p' c.
  assert (0 < (1 - c) * p') by nra. assert ((1 - c) * p' < (1 - c) * p) by nra. assert ((1 - c) * p <= 1 - c) by nra.
  repeat split; nra.
Qed.

Lemma par_centre i_amp c_dB q x0 y0 pr Ea : 0 < pr -> illum_parabolic [i_amp; c_dB; q; x0; y0] pr = Ok Ea -> Ea x0 y0 = i_amp.
Proof.
  intros Hpr E. rewrite (par_inside i_amp c_dB q x0 y0 pr Ea x0 y0 Hpr E); [|nra].
  unfold par_value. cbv zeta. replace (1 - ((x0 - x0) ^ 2 + (y0 - y0) ^ 2) / pr ^ 2) with 1 by (field; lra).
  assert (R1 : Rpower 1 q = 1) by (unfold Rpower; rewrite ln_1, Rmult_0_r; apply exp_0). rewrite R1. ring.
Qed.

Lemma par_api i_amp c_dB q x0 y0 pr Ea : 0 < pr -> 0 < q -> c_dB < 0 -> 0 < i_amp ->
  illum_parabolic [i_amp; c_dB; q; x0; y0] pr = Ok Ea ->
  let d2 x y := (x - x0) ^ 2 + (y - y0) ^ 2 in
  Ea x0 y0 = i_amp /\
  (forall x y, d2 x y = pr ^ 2 -> 20 * (ln (Ea x y / i_amp) / ln 10) = c_dB) /\
  (forall x y x' y', d2 x y < d2 x' y' <= pr ^ 2 -> Ea x' y' < Ea x y) /\
  (forall x y, d2 x y <= pr ^ 2 -> i_amp * Rpower 10 (c_dB / 20) <= Ea x y <= i_amp).
Proof.
  intros Hpr Hq Hc Hi E d2. split; [apply (par_centre _ _ _ _ _ _ _ Hpr E)|].
  assert (D : forall x y, 0 <= d2 x y) by (intros; apply dist2_nonneg).
  split; [|split].
  - intros x y H. rewrite (par_rim _ _ _ _ _ _ _ x y Hpr Hq E H). apply dB_level. lra.
  - intros x y x' y' [H1 H2]. rewrite (par_inside _ _ _ _ _ _ _ x y Hpr E) by (fold (d2 x y); lra).
    destruct H2 as [H2|H2].
    + rewrite (par_inside _ _ _ _ _ _ _ x' y' Hpr E H2). apply par_decreasing; try assumption; split; [apply D|exact H1].
    + rewrite (par_rim _ _ _ _ _ _ _ x' y' Hpr Hq E H2).
      set (m := (d2 x y + pr ^ 2) / 2). fold (d2 x y). destruct (par_decreasing i_amp c_dB q pr (d2 x y) m Hi Hc Hq Hpr) as [P _].
      * split; [apply D|]. unfold m. rewrite <- H2. lra.
      * unfold m. rewrite <- H2. lra.
      * lra.
  - intros x y [H|H].
    + rewrite (par_inside _ _ _ _ _ _ _ x y Hpr E H). fold (d2 x y).
      destruct (par_decreasing i_amp c_dB q pr (d2 x y) ((d2 x y + pr ^ 2) / 2) Hi Hc Hq Hpr); [split; [apply D|lra]|lra|lra].
    + rewrite (par_rim _ _ _ _ _ _ _ x y Hpr Hq E H). pose proof (c_dB_lt1 c_dB Hc). nra.
Qed.

Lemma par_arity I pr : (length I = 5%nat -> exists Ea, illum_parabolic I pr = Ok Ea) /\ (length I <> 5%nat -> illum_parabolic I pr = Err ValueError).
Proof.
  destruct I as [|a [|b [|c [|d [|e [|f I]]]]]]; split; cbn; intros H; try lia; try reflexivity. eexists; reflexivity.
Qed.

Lemma par_gain g i_amp c_dB q x0 y0 pr Ea : 0 < pr -> 0 < q -> illum_parabolic [i_amp; c_dB; q; x0; y0] pr = Ok Ea ->
  exists Ea', illum_parabolic [g * i_amp; c_dB; q; x0; y0] pr = Ok Ea' /\ forall x y, Ea' x y = g * Ea x y.
Proof.
  intros Hpr Hq E. eexists. split; [reflexivity|]. intros x y. unfold illum_parabolic in E. apply Ok_inj in E. subst Ea. cbv zeta.
  set (b := 1 - (sqrt _ / pr) ^ 2). unfold npow. destruct (Rlt_dec 0 b); [cbn; ring|]. destruct (Req_EM_T b 0).
  - destruct (Rlt_dec 0 q); [cbn; ring|lra].
  - destruct (is_integer q); cbn; ring.
Qed.

(** illum_gauss *)
Definition gauss_value (i_amp sigma pr s : R) : R := i_amp * sqrt (2 * PI * sigma ^ 2) * exp (- s / (2 * (sigma * pr) ^ 2)).

Lemma gauss_unfold i_amp c_dB x0 y0 pr : illum_gauss [i_amp; c_dB; x0; y0] pr = Ok (fun x y => gauss_value i_amp (Rpower 10 (c_dB / 20)) pr ((x - x0) ^ 2 + (y - y0) ^ 2)).
Proof. reflexivity. Qed.

Lemma gauss_five i_amp c_dB q x0 y0 pr : illum_gauss [i_amp; c_dB; q; x0; y0] pr = illum_gauss [i_amp; c_dB; x0; y0] pr.
Proof. reflexivity. Qed.

Lemma gauss_arity I pr : (length I < 2)%nat -> illum_gauss I pr = Err ValueError.
Proof. destruct I as [|a [|b I]]; cbn; intros; try lia; reflexivity. Qed.

Lemma skipn_two (I : list R) : (2 <= length I)%nat -> skipn (length I - 2) I = [nth (length I - 2) I 0; nth (length I - 1) I 0].
Proof.
  induction I as [|a I IH]; cbn [length]; [lia|]. intros H. destruct I as [|b [|c I]]; [cbn in H; lia|reflexivity|].
  cbn [length] in *. replace (S (S (S (length I))) - 2)%nat with (S (length I)) by lia. replace (S (S (S (length I))) - 1)%nat with (S (S (length I))) by lia.
  specialize (IH ltac:(lia)). replace (S (S (length I)) - 2)%nat with (length I) in IH by lia. replace (S (S (length I)) - 1)%nat with (S (length I)) in IH by lia.
  cbn [skipn nth] in *. exact IH.
Qed.
Lemma gauss_any I pr : (2 <= length I)%nat ->
  illum_gauss I pr = illum_gauss [nth 0 I 0; nth 1 I 0; nth (length I - 2) I 0; nth (length I - 1) I 0] pr /\ exists Ea, illum_gauss I pr = Ok Ea.
Proof.
  intros H. assert (E : illum_gauss I pr = illum_gauss [nth 0 I 0; nth 1 I 0; nth (length I - 2) I 0; nth (length I - 1) I 0] pr).
  { unfold illum_gauss. change (last2 [nth 0 I 0; nth 1 I 0; nth (length I - 2) I 0; nth (length I - 1) I 0]) with [nth (length I - 2) I 0; nth (length I - 1) I 0].
    unfold last2. rewrite skipn_two by exact H. destruct I as [|a [|b I]]; cbn [length] in H; try lia. reflexivity. }
  split; [exact E|]. rewrite E. eexists. reflexivity.
Qed.

Lemma gauss_api i_amp c_dB x0 y0 pr : 0 < pr -> 0 < i_amp -> exists Ea, illum_gauss [i_amp; c_dB; x0; y0] pr = Ok Ea /\
  let d2 x y := (x - x0) ^ 2 + (y - y0) ^ 2 in
  let sigma := Rpower 10 (c_dB / 20) in
  Ea x0 y0 = i_amp * (sqrt (2 * PI) * sigma) /\
  (forall x y, 0 < Ea x y <= Ea x0 y0) /\
  (forall x y x' y', d2 x y < d2 x' y' -> Ea x' y' < Ea x y) /\
  (forall x y, d2 x y = (sigma * pr) ^ 2 -> Ea x y = Ea x0 y0 * exp (- (1 / 2))).
Proof.
  intros Hpr Hi. rewrite gauss_unfold. eexists. split; [reflexivity|]. cbv zeta. pose proof (c_dB_pos c_dB) as Hs.
  set (sigma := Rpower 10 (c_dB / 20)) in *. clearbody sigma.
  assert (Hden : 0 < 2 * (sigma * pr) ^ 2) by (apply Rmult_lt_0_compat; [lra|]; apply pow_lt; apply Rmult_lt_0_compat; assumption).
  assert (Hsq : sqrt (2 * PI * sigma ^ 2) = sqrt (2 * PI) * sigma).
  { pose proof PI_RGT_0. rewrite sqrt_mult by nra. rewrite sqrt_pow2 by lra. reflexivity. }
  assert (Hpk : 0 < i_amp * (sqrt (2 * PI) * sigma)).
  { pose proof PI_RGT_0. apply Rmult_lt_0_compat; [assumption|]. apply Rmult_lt_0_compat; [|assumption]. apply sqrt_lt_R0. lra. }
  assert (Hc : gauss_value i_amp sigma pr ((x0 - x0) ^ 2 + (y0 - y0) ^ 2) = i_amp * (sqrt (2 * PI) * sigma)).
  { unfold gauss_value. replace (- ((x0 - x0) ^ 2 + (y0 - y0) ^ 2) / (2 * (sigma * pr) ^ 2)) with 0 by (field; lra). rewrite exp_0, Hsq. ring. }
  split; [exact Hc|]. split; [|split].
  - intros x y. rewrite Hc. unfold gauss_value. rewrite Hsq. split.
    + apply Rmult_lt_0_compat; [assumption|apply exp_pos].
    + rewrite <- (Rmult_1_r (i_amp * (sqrt (2 * PI) * sigma))) at 2. apply Rmult_le_compat_l; [lra|].
      assert (E : - ((x - x0) ^ 2 + (y - y0) ^ 2) / (2 * (sigma * pr) ^ 2) <= 0).
      { unfold Rdiv. rewrite <- Ropp_mult_distr_l. assert (0 <= ((x - x0) ^ 2 + (y - y0) ^ 2) * / (2 * (sigma * pr) ^ 2)); [|lra].
        apply Rmult_le_pos; [apply dist2_nonneg|left; apply Rinv_0_lt_compat; assumption]. }
      destruct E as [E|E]; [left; rewrite <- exp_0; apply exp_increasing; assumption|rewrite E, exp_0; lra].
  - intros x y x' y' H. unfold gauss_value. rewrite Hsq. apply Rmult_lt_compat_l; [assumption|]. apply exp_increasing.
    apply Rmult_lt_compat_r; [apply Rinv_0_lt_compat; assumption|lra].
  - intros x y H. rewrite H, Hc. unfold gauss_value. rewrite Hsq. f_equal. f_equal. field. split; nra.
Qed.

(** Not a normalised Gaussian: the peak is proportional to sigma, not 1/sigma. *)
Lemma gauss_gain g i_amp c_dB x0 y0 pr Ea : illum_gauss [i_amp; c_dB; x0; y0] pr = Ok Ea ->
  exists Ea', illum_gauss [g * i_amp; c_dB; x0; y0] pr = Ok Ea' /\ forall x y, Ea' x y = g * Ea x y.
Proof. intros E. rewrite gauss_unfold in E. apply Ok_inj in E. subst Ea. rewrite gauss_unfold. eexists. split; [reflexivity|]. intros. unfold gauss_value. ring. Qed.
