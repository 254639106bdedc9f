(** Rounding errors of transform and itransform. *)
From Flocq Require Import Core.
From Coq Require Import Reals ZArith List Lia Lra.
From Verif Require Import PyBase PyLib Num MAct SFloat MFloat SRound PRound.
Open Scope R_scope.

Lemma fl_0 : fl 0 = 0. Proof. apply round_0. apply valid_rnd_N. Qed.
Lemma near_round x z : Rabs (x - IZR z) < / 2 -> ZnearestE x = z.
Proof. apply Znearest_imp. Qed.
Lemma limit_near lo hi x z d : lo <= z <= hi -> Rabs (x - z) < d -> exists y, limit lo hi (Fin x) = Fin y /\ Rabs (y - z) < d.
Proof.
  intros Hz H. apply Rabs_def2 in H. unfold limit. unfold ngt. cbn [nlt]. destruct (Rltb_spec hi x) as [E|E]; cbn [nlt].
  - destruct (Rltb_spec hi lo) as [E'|E']; [lra|]. exists hi. split; [reflexivity|apply Rabs_def1; lra].
  - destruct (Rltb_spec x lo) as [E'|E']; [exists lo|exists x]; (split; [reflexivity|apply Rabs_def1; lra]).
Qed.

(** A displacement comes back through both directions within 7 units. *)
Lemma both_ways t v : / 2 ^ 100 <= Rabs t -> 1 <= Rabs v -> Rabs (fl (fl (transform64 t v / t) * 1000) - v) <= 7 * unit_roundoff * Rabs v.
Proof.
  intros Ht Hv. set (e := unit_roundoff). pose proof roundoff_pos as U. fold e in U. assert (He : unit_roundoff <= e) by (unfold e; lra).
  assert (Hs : e <= / 1000). { unfold e, unit_roundoff. apply Rinv_le_contravar; [lra|]. apply Rle_trans with (2 ^ 10); [lra|]. apply Rle_pow; [lra|lia]. }
  assert (Tn : tiny <= / 2 ^ 100 * / 1000). { unfold tiny. replace 900%nat with (100 + 800)%nat by reflexivity. rewrite pow_add, Rinv_mult. apply Rmult_le_compat_l; [left; apply Rinv_0_lt_compat, pow_lt; lra|]. apply Rinv_le_contravar; [lra|]. apply Rle_trans with (2 ^ 10); [lra|]. apply Rle_pow; [lra|lia]. }
  assert (P : 0 < / 2 ^ 100) by (apply Rinv_0_lt_compat, pow_lt; lra). assert (P1 : / 2 ^ 100 <= 1). { rewrite <- Rinv_1. apply Rinv_le_contravar; [lra|]. apply pow_R1_Rle. lra. }
  assert (Ta : t <> 0). { intros ->. rewrite Rabs_R0 in Ht. lra. } set (w := Rabs t) in *. assert (Tv : / 2 ^ 100 <= w * Rabs v). { rewrite <- (Rmult_1_r (/ 2 ^ 100)). apply Rmult_le_compat; lra. }
  assert (A1 : Rabs (fl (t * v) - t * v) <= (0 + 6 / 5) * e * (w * Rabs v)).
  { apply fl_step; try assumption; try lra; [rewrite Rminus_eq_0, Rabs_R0; lra|rewrite Rabs_mult; apply Rle_refl]. }
  assert (A2 : Rabs (fl (1 / 1000) - 1 / 1000) <= (0 + 6 / 5) * e * (1 / 1000)).
  { apply fl_step; try assumption; try lra; [rewrite Rminus_eq_0, Rabs_R0; lra|rewrite Rabs_pos_eq; lra]. }
  assert (A3 : Rabs (fl (t * v) * fl (1 / 1000) - t * v * (1 / 1000)) <= (0 + 6 / 5 + 11 / 10 * (0 + 6 / 5)) * e * (w * Rabs v * (1 / 1000))).
  { apply mul_step; try assumption; try lra; [rewrite Rabs_mult; apply Rle_refl|rewrite Rabs_pos_eq; lra]. }
  assert (B3 : Rabs (t * v * (1 / 1000)) <= w * Rabs v * (1 / 1000)). { rewrite !Rabs_mult, (Rabs_pos_eq (1 / 1000)) by lra. apply Rle_refl. }
  assert (A4 : Rabs (transform64 t v - t * v * (1 / 1000)) <= (0 + 6 / 5 + 11 / 10 * (0 + 6 / 5) + 6 / 5) * e * (w * Rabs v * (1 / 1000))).
  { unfold transform64. apply fl_step; try assumption; lra. }
  assert (A5 : Rabs (transform64 t v / t - v * (1 / 1000)) <= (0 + 6 / 5 + 11 / 10 * (0 + 6 / 5) + 6 / 5) * e * (Rabs v * (1 / 1000))).
  { replace (transform64 t v / t - v * (1 / 1000)) with ((transform64 t v - t * v * (1 / 1000)) * / t) by (field; exact Ta). rewrite Rabs_mult, Rabs_inv. fold w.
    apply (Rmult_le_reg_r w); [lra|]. rewrite Rmult_assoc, Rinv_l, Rmult_1_r by lra. eapply Rle_trans; [exact A4|]. right. ring. }
  assert (A6 : Rabs (fl (transform64 t v / t) - v * (1 / 1000)) <= (0 + 6 / 5 + 11 / 10 * (0 + 6 / 5) + 6 / 5 + 6 / 5) * e * (Rabs v * (1 / 1000))).
  { apply fl_step; try assumption; try lra. rewrite Rabs_mult, (Rabs_pos_eq (1 / 1000)) by lra. apply Rle_refl. }
  assert (A7 : Rabs (fl (transform64 t v / t) * 1000 - v) <= (0 + 6 / 5 + 11 / 10 * (0 + 6 / 5) + 6 / 5 + 6 / 5) * e * Rabs v).
  { replace (fl (transform64 t v / t) * 1000 - v) with ((fl (transform64 t v / t) - v * (1 / 1000)) * 1000) by field. rewrite Rabs_mult, (Rabs_pos_eq 1000) by lra. lra. }
  eapply Rle_trans; [apply (fl_step e _ (Rabs v) _ v He Hs A7); lra|]. apply Rmult_le_compat_r; [lra|]. apply Rmult_le_compat_r; lra.
Qed.

Lemma whole_um lo hi t z : / 2 ^ 100 <= Rabs t -> (Z.abs z <= 2 ^ 49)%Z -> lo <= IZR z <= hi ->
  exists y, itransform64 lo hi t (transform64 t (IZR z)) = Fin y /\ ZnearestE y = z.
Proof.
  intros Ht Hz Hl. unfold itransform64. assert (H : Rabs (fl (fl (transform64 t (IZR z) / t) * 1000) - IZR z) < / 2).
  { destruct (Z.eq_dec z 0) as [->|N].
    - unfold transform64. rewrite Rmult_0_r, fl_0, Rmult_0_l, fl_0. unfold Rdiv. rewrite Rmult_0_l, fl_0, Rmult_0_l, fl_0, Rminus_0_r, Rabs_R0. lra.
    - assert (A : 1 <= Rabs (IZR z)) by (rewrite <- abs_IZR; apply IZR_le; lia). assert (B : Rabs (IZR z) <= 2 ^ 49) by (rewrite <- abs_IZR, pow_IZR; apply IZR_le; exact Hz).
      eapply Rle_lt_trans; [apply (both_ways t (IZR z) Ht A)|]. pose proof roundoff_pos. apply Rle_lt_trans with (7 * unit_roundoff * 2 ^ 49); [apply Rmult_le_compat_l; lra|].
      unfold unit_roundoff. replace (2 ^ 53) with (16 * 2 ^ 49) by (cbn; ring). rewrite Rinv_mult. assert (2 ^ 49 <> 0) by (apply pow_nonzero; lra).
      replace (7 * (/ 16 * / 2 ^ 49) * 2 ^ 49) with (7 / 16) by (field; exact H0). lra. }
  destruct (limit_near lo hi _ (IZR z) _ Hl H) as (y & E & D). exists y. split; [exact E|]. apply near_round, D.
Qed.
