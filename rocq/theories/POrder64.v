(** C08: the order inferred from the number of coefficients, in binary64. *)
From Flocq Require Import Core.
From Coquelicot Require Import Coquelicot.
From Verif Require Import PyBase PyLib MZernike Num MMath MAperture PEnum PWave SFloat.
Open Scope R_scope.

Lemma fl_format x : generic_format radix2 (FLT_exp (-1074) 53) x -> fl x = x.
Proof. intros H. apply round_generic; [apply valid_rnd_N|exact H]. Qed.

Lemma fl_le x y : x <= y -> fl x <= fl y.
Proof. intros H. apply round_le; [apply FLT_exp_valid; reflexivity|apply valid_rnd_N|exact H]. Qed.

(** Numbers m * 2^e with |m| < 2^53, -1074 <= e are exact. *)
Lemma dyadic_format (m e : Z) : (Z.abs m < 2 ^ 53)%Z -> (-1074 <= e)%Z ->
  generic_format radix2 (FLT_exp (-1074) 53) (IZR m * bpow radix2 e).
Proof.
  intros Hm He. apply generic_format_FLT. exists (Float radix2 m e); [reflexivity|exact Hm|exact He].
Qed.

Lemma fl_int (m : Z) : (Z.abs m < 2 ^ 53)%Z -> fl (IZR m) = IZR m.
Proof.
  intros H. apply fl_format. replace (IZR m) with (IZR m * bpow radix2 0) by (cbn; ring). apply dyadic_format; [exact H|lia].
Qed.

Lemma order64_sandwich (k : nat) (s : Z) : (8 * Z.of_nat k + 1 < 2 ^ 53)%Z -> (1 <= s)%Z ->
  (s * s <= 8 * Z.of_nat k + 1)%Z -> (8 * Z.of_nat k + 1 < (s + 2) * (s + 2))%Z -> Z.Odd s ->
  IZR (s - 3) / 2 <= fl (fl (fl (sqrt (fl (IZR (8 * Z.of_nat k + 1)))) - 3) / 2) < IZR (s - 1) / 2.
Proof.
  intros Hk Hs Hlo Hhi [h Hh].
  set (x := (8 * Z.of_nat k + 1)%Z) in *.
  rewrite (fl_int x) by lia.
  assert (Hs27 : (s + 2 < 2 ^ 27)%Z).
  { assert (s < 2 ^ 26 * 1 + 2 ^ 26)%Z by nia. cut (s < 94906266)%Z; [lia|]. nia. }
  (* x <= (s+2)^2 - 8 *)
  assert (Hx8 : (x <= (s + 2) * (s + 2) - 8)%Z).
  { assert (exists q, (s + 2) * (s + 2) = 8 * q + 1)%Z as [q Hq].
    { destruct (Z.Even_or_Odd h) as [[c Hc]|[c Hc]].
      - exists (2 * c * c + 3 * c + 1)%Z. subst h s. ring.
      - exists (2 * c * c + 5 * c + 3)%Z. subst h s. ring. }
    unfold x in *. lia. }
  set (e := bpow radix2 (-25)).
  assert (He : 0 < e) by apply bpow_gt_0.
  assert (Ee : e * IZR (2 ^ 25) = 1).
  { unfold e. replace (IZR (2 ^ 25)) with (bpow radix2 25) by reflexivity. rewrite <- bpow_plus. reflexivity. }
  assert (Hsq_lo : IZR s <= sqrt (IZR x)).
  { rewrite <- (sqrt_square (IZR s)) by (apply IZR_le; lia). apply sqrt_le_1_alt. rewrite <- mult_IZR. apply IZR_le; lia. }
  assert (Hsq_hi : sqrt (IZR x) <= IZR (s + 2) - e).
  { assert (Hs2 : 3 <= IZR (s + 2)) by (apply IZR_le; lia).
    assert (H27 : IZR (s + 2) <= IZR (2 ^ 27)) by (apply IZR_le; lia).
    assert (IZR (2 ^ 27) = 4 * IZR (2 ^ 25)) as E27 by (rewrite <- mult_IZR; reflexivity).
    assert (Hes : e * IZR (s + 2) <= 4) by nra.
    assert (e <= 1) by (assert (1 <= IZR (2 ^ 25)) by (apply IZR_le; lia); nra).
    rewrite <- (sqrt_square (IZR (s + 2) - e)) by lra. apply sqrt_le_1_alt.
    apply IZR_le in Hx8. rewrite minus_IZR, mult_IZR in Hx8. nra. }
  assert (Frep : forall z, (Z.abs z < 2 ^ 27)%Z -> fl (IZR z - e) = IZR z - e).
  { intros z Hz. apply fl_format. replace (IZR z - e) with (IZR (z * 2 ^ 25 - 1) * bpow radix2 (-25)).
    - apply dyadic_format; lia.
    - fold e. rewrite minus_IZR, mult_IZR. rewrite Rmult_minus_distr_r, Rmult_assoc, (Rmult_comm (IZR (2 ^ 25))), Ee. ring. }
  assert (H1 : IZR s <= fl (sqrt (IZR x)) <= IZR (s + 2) - e).
  { split.
    - rewrite <- (fl_int s) by lia. apply fl_le; assumption.
    - rewrite <- Frep by lia. apply fl_le; assumption. }
  assert (H2 : IZR (s - 3) <= fl (fl (sqrt (IZR x)) - 3) <= IZR (s - 1) - e).
  { split.
    - rewrite <- (fl_int (s - 3)) by lia. apply fl_le. rewrite minus_IZR. lra.
    - rewrite <- Frep by lia. apply fl_le. rewrite plus_IZR in H1. rewrite minus_IZR. lra. }
  split.
  - replace (IZR (s - 3) / 2) with (IZR (s - 3) * bpow radix2 (-1)) by (cbn; lra).
    rewrite <- (fl_format (IZR (s - 3) * bpow radix2 (-1))) by (apply dyadic_format; lia).
    apply fl_le. cbn. lra.
  - apply Rle_lt_trans with ((IZR (s - 1) - e) / 2); [|lra].
    replace ((IZR (s - 1) - e) / 2) with (IZR ((s - 1) * 2 ^ 25 - 1) * bpow radix2 (-26)).
    + rewrite <- (fl_format (IZR ((s - 1) * 2 ^ 25 - 1) * bpow radix2 (-26))) by (apply dyadic_format; lia).
      apply fl_le.
      replace (IZR ((s - 1) * 2 ^ 25 - 1) * bpow radix2 (-26)) with ((IZR (s - 1) - e) / 2); [lra|].
      rewrite (minus_IZR (_ * _)), mult_IZR. replace (bpow radix2 (-26)) with (e / 2) by (unfold e; cbn; lra).
      replace ((IZR (s - 1) * IZR (2 ^ 25) - 1) * (e / 2)) with ((IZR (s - 1) * (e * IZR (2 ^ 25)) - e) / 2) by field.
      rewrite Ee. field.
    + rewrite (minus_IZR (_ * _)), mult_IZR. replace (bpow radix2 (-26)) with (e / 2) by (unfold e; cbn; lra).
      replace ((IZR (s - 1) * IZR (2 ^ 25) - 1) * (e / 2)) with ((IZR (s - 1) * (e * IZR (2 ^ 25)) - e) / 2) by field.
      rewrite Ee. field.
Qed.

Lemma Ztrunc_half (h : Z) y : (0 <= h)%Z -> IZR (h - 1) <= y < IZR h -> Ztrunc y = (h - 1)%Z \/ (h = 0)%Z.
Proof.
  intros Hh [H1 H2]. destruct (Z.eq_dec h 0) as [->|Hne]; [right; reflexivity|left].
  rewrite Ztrunc_floor by (apply Rle_trans with (2 := H1); apply IZR_le; lia).
  apply Zfloor_imp. replace (h - 1 + 1)%Z with h by ring. split; assumption.
Qed.

Lemma order64_ok (k : nat) : (8 * Z.of_nat k + 1 < 2 ^ 53)%Z -> order64 k = order_of_size k.
Proof.
  intros Hk. destruct (triangular_bracket k) as (n & H1 & H2).
  destruct k as [|k].
  { unfold order64, order_of_size. cbn [INR Z.of_nat Z.mul Z.add]. replace (1 + 8 * 0) with 1 by ring. rewrite sqrt_1.
    rewrite (fl_int 1) by lia. rewrite sqrt_1. rewrite (fl_int 1) by lia.
    replace (1 - 3) with (IZR (-2)) by (cbn; lra). rewrite (fl_int (-2)) by lia.
    replace (IZR (-2) / 2) with (IZR (-1)) by (cbn; lra). rewrite (fl_int (-1)) by lia. reflexivity. }
  unfold order64.
  rewrite (order_between n) by (try assumption; lia).
  assert (Hn : (1 <= n)%nat) by (destruct n; [cbn in *; lia|lia]).
  pose proof (order64_sandwich (S k) (2 * Z.of_nat n + 1) Hk ltac:(lia)) as H.
  specialize (H ltac:(nia) ltac:(nia) ltac:(exists (Z.of_nat n); lia)).
  replace (IZR (2 * Z.of_nat n + 1 - 3) / 2) with (IZR (Z.of_nat n - 1)) in H.
  2:{ rewrite !minus_IZR, plus_IZR, mult_IZR. lra. }
  replace (IZR (2 * Z.of_nat n + 1 - 1) / 2) with (IZR (Z.of_nat n)) in H.
  2:{ rewrite !minus_IZR, plus_IZR, mult_IZR. lra. }
  destruct (Ztrunc_half (Z.of_nat n) _ ltac:(lia) H) as [E|E]; [exact E|lia].
Qed.

(** C13 in binary64. *)
Lemma fl_0 : fl 0 = 0.
Proof. unfold fl. apply round_0. apply valid_rnd_N. Qed.
Lemma fl_1 : fl 1 = 1.
Proof. apply (fl_int 1). lia. Qed.

Lemma norm64_range mn mx p q : mn <= p <= q -> q <= mx -> fl (mx - mn) <> 0 ->
  0 <= norm64 mn mx p <= norm64 mn mx q /\ norm64 mn mx q <= 1 /\ norm64 mn mx mn = 0 /\ norm64 mn mx mx = 1.
Proof.
  intros Hp Hq Hne.
  assert (Hpos : 0 < fl (mx - mn)).
  { assert (0 <= fl (mx - mn)); [|lra]. rewrite <- fl_0. apply fl_le. lra. }
  pose proof (Rinv_0_lt_compat _ Hpos) as Hinv.
  assert (H0 : 0 <= fl (p - mn)) by (rewrite <- fl_0; apply fl_le; lra).
  assert (H1 : fl (p - mn) <= fl (q - mn)) by (apply fl_le; lra).
  assert (H2 : fl (q - mn) <= fl (mx - mn)) by (apply fl_le; lra).
  unfold norm64. repeat split.
  - rewrite <- fl_0. apply fl_le. apply Rmult_le_pos; lra.
  - apply fl_le. apply Rmult_le_compat_r; lra.
  - rewrite <- fl_1. apply fl_le. apply Rmult_le_reg_r with (fl (mx - mn)); [assumption|].
    unfold Rdiv. rewrite Rmult_assoc, Rinv_l by lra. lra.
  - replace (mn - mn) with 0 by ring. rewrite fl_0. unfold Rdiv. rewrite Rmult_0_l. apply fl_0.
  - unfold Rdiv. rewrite Rinv_r by lra. apply fl_1.
Qed.
