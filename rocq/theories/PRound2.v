(** Rounding errors of zernike.R, zernike.U and wavefront. *)
From Coq Require Import Reals ZArith List Lia Lra.
From Verif Require Import PyBase Sums PyLib Num MZernike PZernike SZernike MMath MAperture SFloat MFloat PEnum PDisk PBound PWave PPhase PZern2 POrder64 SRound PRound.
From Verif Require PGain.
Import ListNotations.
Open Scope R_scope.

Lemma pow_unit x k : 0 <= x <= 1 -> 0 <= x ^ k <= 1.
Proof. intros H. split; [apply pow_le; lra|]. rewrite <- (pow1 k). apply pow_incr. lra. Qed.
Lemma sign_abs s : Rabs ((-1) ^ s) = 1.
Proof. apply pow_1_abs. Qed.

(** One summand of the radial polynomial. *)
Lemma term_err e lm (n a b s : nat) x : accurate e lm -> unit_roundoff <= e -> e <= / 1000 -> n = (a + b)%nat -> (s <= b)%nat -> (b <= a)%nat -> 0 <= x <= 1 ->
  Rabs (fl (fl (fl ((-1) ^ s * INR (fact (n - s))) * lm_pow lm (Z.of_nat (n - 2 * s)) x) / fl (INR (fact s) * INR (fact (a - s)) * INR (fact (b - s))))
        - (-1) ^ s * INR (fact (n - s)) * x ^ (n - 2 * s) / (INR (fact s) * INR (fact (a - s)) * INR (fact (b - s)))) <= 6 * e * (bin (n - s) a * bin a s).
Proof.
  intros (A & _) He Hs -> Hb Ha Hx. pose proof roundoff_pos as U. pose proof tiny_pos as T.
  assert (T1 : tiny <= 1). { unfold tiny. rewrite <- Rinv_1. apply Rinv_le_contravar; [lra|]. apply pow_R1_Rle. lra. }
  rewrite <- (coeff_bin a b s Hb Ha). set (c := INR (fact (a + b - s))). set (d := INR (fact s) * INR (fact (a - s)) * INR (fact (b - s))).
  assert (F1 : forall k, 1 <= INR (fact k)) by (intros k; apply (le_INR 1), lt_O_fact).
  assert (Hc : 1 <= c) by apply F1.
  assert (Hd : 1 <= d). { unfold d. rewrite <- (Rmult_1_r 1). apply Rmult_le_compat; try lra; [|apply F1]. rewrite <- (Rmult_1_r 1). apply Rmult_le_compat; try lra; apply F1. }
  assert (Sc : Rabs ((-1) ^ s * c) = c) by (rewrite Rabs_mult, sign_abs, Rabs_pos_eq by lra; ring).
  specialize (A (Z.of_nat (a + b - 2 * s)) x ltac:(lia) Hx). rewrite powerRZ_nat in A. pose proof (pow_unit x (a + b - 2 * s) Hx) as Hp.
  set (p := x ^ (a + b - 2 * s)) in *. set (p64 := lm_pow lm _ x) in *.
  assert (S1 : Rabs (fl ((-1) ^ s * c) - (-1) ^ s * c) <= (0 + 6 / 5) * e * c).
  { apply fl_step; try lra. rewrite Rminus_eq_0, Rabs_R0. lra. }
  assert (S2 : Rabs (fl ((-1) ^ s * c) * p64 - (-1) ^ s * c * p) <= (0 + 6 / 5 + 11 / 10 * 1) * e * (c * 1)).
  { apply mul_step; try lra. rewrite Rabs_pos_eq; lra. }
  assert (Sp : Rabs ((-1) ^ s * c * p) <= c * 1). { rewrite Rabs_mult, Sc, Rabs_pos_eq by lra. apply Rmult_le_compat_l; lra. }
  pose proof (fl_step e (0 + 6 / 5 + 11 / 10 * 1) (c * 1) _ _ He Hs S2 Sp ltac:(lra) ltac:(lra)) as S3. rewrite (Rmult_1_r c) in S3, Sp.
  assert (S4 : Rabs (fl d - d) <= 6 / 5 * e * d).
  { replace (6 / 5) with (0 + 6 / 5) by ring. apply fl_step; try lra; [|rewrite Rabs_pos_eq; lra]. rewrite Rminus_eq_0, Rabs_R0. lra. }
  pose proof (div_step e (0 + 6 / 5 + 11 / 10 * 1 + 6 / 5) c d _ _ _ ltac:(lra) Hs ltac:(lra) ltac:(lra) ltac:(lra) S3 Sp S4) as S5.
  assert (C1 : 1 <= c / d). { unfold c, d. rewrite coeff_bin by assumption. rewrite <- (Rmult_1_r 1). apply Rmult_le_compat; try lra; apply bin_ge1; lia. }
  assert (S6 : Rabs ((-1) ^ s * c * p / d) <= c / d). { unfold Rdiv at 1. rewrite Rabs_mult, (Rabs_pos_eq (/ d)) by (left; apply Rinv_0_lt_compat; lra). unfold Rdiv. apply Rmult_le_compat_r; [left; apply Rinv_0_lt_compat; lra|exact Sp]. }
  pose proof (fl_step e ((0 + 6 / 5 + 11 / 10 * 1 + 6 / 5 + 6 / 5) * (101 / 100)) (c / d) _ _ He Hs S5 S6 ltac:(lra) ltac:(lra)) as S7.
  eapply Rle_trans; [exact S7|]. apply Rmult_le_compat_r; [lra|]. apply Rmult_le_compat_r; lra.
Qed.

Lemma dlan_pos a b : (b <= a)%nat -> 1 <= dlan a b.
Proof.
  intros H. unfold dlan. rewrite Rsum_Sl. assert (1 <= bin (a + b - 0) a * bin a 0) by (rewrite <- (Rmult_1_r 1) at 1; apply Rmult_le_compat; try lra; apply bin_ge1; lia).
  assert (0 <= Rsum b (fun i => bin (a + b - S i) a * bin a (S i))); [|lra]. apply Rsum_nonneg. intros i Hi.
  pose proof (bin_ge1 a (S i) ltac:(lia)). pose proof (bin_ge1 (a + b - S i) a ltac:(lia)). apply Rmult_le_pos; lra.
Qed.

Lemma R_err e lm (n m : nat) : accurate e lm -> unit_roundoff <= e -> (m <= n)%nat -> Nat.even (n - m) = true -> loss n * e <= / 100 ->
  exists g g64, zernike_R (Z.of_nat n) (Z.of_nat m) = Ok g /\ zernike_R64 lm (Z.of_nat n) (Z.of_nat m) = Ok g64 /\
    forall x, 0 <= x <= 1 -> Rabs (g x) <= 1 /\ Rabs (g64 x - g x) <= (36 / 5 + 3 / 5 * INR n) * (5 / 2) ^ n * e.
Proof.
  intros Ha He Hm Ev Hl. destruct (R_bound n m Hm Ev) as (g & Eg & Bg). destruct (zernike_R_nat n m Hm) as (g' & Eg' & Vg). rewrite Eg in Eg'. apply Ok_inj in Eg'. subst g'.
  destruct (admissible_ab n m Hm Ev) as (a & b & Hab & En & Em & Ea & Eb). rewrite Ea, Eb in Vg.
  pose proof roundoff_pos as U. assert (P1 : 1 <= (5 / 2) ^ n) by (apply pow_R1_Rle; lra). pose proof (pos_INR n) as Pn.
  assert (Hs : e <= / 1000). { unfold loss in Hl. assert (2 * 6 * 1 <= 2 * (INR n + 6) * (5 / 2) ^ n) by (apply Rmult_le_compat; lra). assert (2 * 6 * 1 * e <= 2 * (INR n + 6) * (5 / 2) ^ n * e) by (apply Rmult_le_compat_r; lra). lra. }
  exists g. eexists. split; [exact Eg|]. split.
  - unfold zernike_R64.
    replace ((Z.of_nat n + Z.of_nat m) / 2)%Z with (Z.of_nat a) by (rewrite <- Ea, Nat2Z.inj_div, Nat2Z.inj_add; reflexivity).
    replace ((Z.of_nat n - Z.of_nat m) / 2)%Z with (Z.of_nat b) by (rewrite <- Eb, Nat2Z.inj_div, Nat2Z.inj_sub by lia; reflexivity).
    replace (Z.of_nat b + 1)%Z with (Z.of_nat (S b)) by lia. rewrite range2_nat.
    rewrite (mapM_ok _ (fun z => let s := Z.to_nat z in fun rho => fl (fl (fl ((-1) ^ s * INR (fact (n - s))) * lm_pow lm (Z.of_nat (n - 2 * s)) rho) / fl (INR (fact s) * INR (fact (a - s)) * INR (fact (b - s)))))).
    + cbn [bind]. reflexivity.
    + intros z Hz. apply in_map_iff in Hz as (s & <- & Hs'). apply in_seq in Hs'. unfold R_term64. rewrite Nat2Z.id.
      replace (Z.of_nat n - Z.of_nat s)%Z with (Z.of_nat (n - s)) by lia. replace (Z.of_nat a - Z.of_nat s)%Z with (Z.of_nat (a - s)) by lia. replace (Z.of_nat b - Z.of_nat s)%Z with (Z.of_nat (b - s)) by lia.
      rewrite !py_factorial_nat. cbn [bind]. replace (Z.of_nat n - 2 * Z.of_nat s)%Z with (Z.of_nat (n - 2 * s)) by lia. rewrite powerRZ_nat. reflexivity.
  - intros x Hx. split; [apply Bg; lra|]. cbv beta. rewrite !map_map, Vg. unfold Rsumform.
    assert (Sb : INR (S b) <= INR n / 2 + 1). { rewrite S_INR. assert (INR (2 * b) <= INR n) by (apply le_INR; lia). rewrite mult_INR in H. cbn [INR] in H. lra. }
    assert (Sm : (6 + 6 / 5 * INR (S b)) * e <= / 10).
    { unfold loss in Hl. assert (6 + 6 / 5 * INR (S b) <= 2 * (INR n + 6) * (5 / 2) ^ n). { apply Rle_trans with (2 * (INR n + 6) * 1); [lra|]. apply Rmult_le_compat_l; lra. }
      assert ((6 + 6 / 5 * INR (S b)) * e <= 2 * (INR n + 6) * (5 / 2) ^ n * e) by (apply Rmult_le_compat_r; lra). lra. }
    rewrite (map_ext _ (fun s => fl (fl (fl ((-1) ^ s * INR (fact (n - s))) * lm_pow lm (Z.of_nat (n - 2 * s)) x) / fl (INR (fact s) * INR (fact (a - s)) * INR (fact (b - s)))))) by (intros s; rewrite Nat2Z.id; reflexivity).
    eapply Rle_trans; [apply (sum_step e 6 _ _ (fun s => bin (n - s) a * bin a s) (S b) He Hs ltac:(lra))|].
    + intros s Hsb. split; [apply term_err; try assumption; lia|].
      assert (G : 1 <= bin (n - s) a * bin a s). { rewrite <- (Rmult_1_r 1). apply Rmult_le_compat; try lra; apply bin_ge1; lia. }
      assert (T1 : tiny <= 1). { unfold tiny. rewrite <- Rinv_1. apply Rinv_le_contravar; [lra|]. apply pow_R1_Rle. lra. }
      split; [|lra]. rewrite En. rewrite <- (coeff_bin a b s ltac:(lia) Hab). unfold Rdiv. rewrite !Rabs_mult, sign_abs, Rmult_1_l.
      rewrite (Rabs_pos_eq (INR (fact (a + b - s)))) by apply pos_INR. pose proof (pow_unit x (a + b - 2 * s) Hx) as Hp. rewrite (Rabs_pos_eq (x ^ (a + b - 2 * s))) by lra.
      assert (D : 0 < INR (fact s) * INR (fact (a - s)) * INR (fact (b - s))) by (apply Rmult_lt_0_compat; [apply Rmult_lt_0_compat|]; apply INR_fact_lt_0).
      rewrite Rabs_pos_eq by (left; apply Rinv_0_lt_compat; exact D). apply Rmult_le_compat_r; [left; apply Rinv_0_lt_compat; exact D|].
      rewrite <- (Rmult_1_r (INR (fact (a + b - s)))) at 2. apply Rmult_le_compat_l; [apply pos_INR|lra].
    + exact Sm.
    + assert (E : Rsum (S b) (fun s => bin (n - s) a * bin a s) = dlan a b) by (rewrite En; reflexivity). rewrite E.
      pose proof (dlan_bound a b) as DB. rewrite <- En in DB. pose proof (dlan_pos a b Hab). 
      replace ((36 / 5 + 3 / 5 * INR n) * (5 / 2) ^ n * e) with ((36 / 5 + 3 / 5 * INR n) * e * (5 / 2) ^ n) by ring.
      apply Rmult_le_compat; [apply Rmult_le_pos; [pose proof (pos_INR (S b)); lra|lra]|lra| |exact DB]. apply Rmult_le_compat_r; lra.
Qed.

Lemma cos_lip x y : Rabs (cos x - cos y) <= Rabs (x - y).
Proof.
  replace (cos x - cos y) with (-2 * sin ((x - y) / 2) * sin ((x + y) / 2)) by (rewrite form2; reflexivity).
  rewrite !Rabs_mult. rewrite (Rabs_left (-2)) by lra. pose proof (PGain.cos_lower (x - y)) as L. pose proof (cos_2a_sin ((x - y) / 2)) as D. replace (2 * ((x - y) / 2)) with (x - y) in D by field. rewrite D in L.
  assert (S2 : Rabs (sin ((x - y) / 2)) <= Rabs (x - y) / 2).
  { apply Rsqr_incr_0; [|apply Rabs_pos|pose proof (Rabs_pos (x - y)); lra]. replace (Rsqr (Rabs (x - y) / 2)) with (Rsqr (Rabs (x - y)) / 4) by (unfold Rsqr; field). rewrite <- !Rsqr_abs. unfold Rsqr. lra. }
  assert (S1 : Rabs (sin ((x + y) / 2)) <= 1) by (apply Rabs_le; pose proof (SIN_bound ((x + y) / 2)); lra).
  pose proof (Rabs_pos (sin ((x - y) / 2))). pose proof (Rabs_pos (sin ((x + y) / 2))). nra.
Qed.
Lemma sin_lip x y : Rabs (sin x - sin y) <= Rabs (x - y).
Proof. rewrite <- (cos_shift x), <- (cos_shift y). eapply Rle_trans; [apply cos_lip|]. replace (PI / 2 - x - (PI / 2 - y)) with (- (x - y)) by ring. rewrite Rabs_Ropp. lra. Qed.

Lemma loss_small n e : 0 <= e -> loss n * e <= / 100 -> e <= / 1000.
Proof.
  intros He Hl. unfold loss in Hl. pose proof (pos_INR n). assert (P1 : 1 <= (5 / 2) ^ n) by (apply pow_R1_Rle; lra).
  assert (2 * 6 * 1 <= 2 * (INR n + 6) * (5 / 2) ^ n) by (apply Rmult_le_compat; lra). assert (2 * 6 * 1 * e <= 2 * (INR n + 6) * (5 / 2) ^ n * e) by (apply Rmult_le_compat_r; lra). lra.
Qed.
Lemma bernoulli n : 1 + 3 / 2 * INR n <= (5 / 2) ^ n.
Proof. replace (5 / 2) with (1 + 3 / 2) by field. pose proof (poly n (3 / 2) ltac:(lra)). lra. Qed.

(** The computed angle function. *)
Lemma angle_err e (f f64 : R -> R) n (m : nat) t : unit_roundoff <= e -> e <= / 1000 -> (forall x, Rabs (f64 x - f x) <= e) -> (forall x y, Rabs (f x - f y) <= Rabs (x - y)) -> (m <= n)%nat -> Rabs t <= PI ->
  Rabs (f64 (fl (INR m * t)) - f (INR m * t)) <= (11 / 10 + 4 * INR n) * e * 1.
Proof.
  intros He Hs Hf Hl Hm Ht. pose proof roundoff_pos as U. pose proof tiny_pos as T. assert (T1 : tiny <= 1). { unfold tiny. rewrite <- Rinv_1. apply Rinv_le_contravar; [lra|]. apply pow_R1_Rle. lra. }
  replace (f64 (fl (INR m * t)) - f (INR m * t)) with ((f64 (fl (INR m * t)) - f (fl (INR m * t))) + (f (fl (INR m * t)) - f (INR m * t))) by ring.
  eapply Rle_trans; [apply Rabs_triang|]. pose proof (Hf (fl (INR m * t))) as A. pose proof (Hl (fl (INR m * t)) (INR m * t)) as B. pose proof (fl_err e (INR m * t) He) as Fe.
  assert (M : Rabs (INR m * t) <= 4 * INR n). { rewrite Rabs_mult, Rabs_pos_eq by apply pos_INR. pose proof (le_INR _ _ Hm). pose proof (pos_INR m). pose proof (Rabs_pos t). pose proof PI_4. nra. }
  assert (e * (Rabs (INR m * t) + tiny / 100) <= e * (4 * INR n + / 10)) by (apply Rmult_le_compat_l; lra). lra.
Qed.

Lemma U_err e lm (n : nat) l : accurate e lm -> unit_roundoff <= e -> admissible (Z.of_nat n) l -> loss n * e <= / 100 ->
  exists g g64, zernike_U (PyInt (Z.of_nat n)) (PyInt l) = Ok g /\ zernike_U64 lm (PyInt (Z.of_nat n)) (PyInt l) = Ok g64 /\
    forall x t, 0 <= x <= 1 -> Rabs t <= PI -> Rabs (g64 x t - g x t) <= loss n * e.
Proof.
  intros Ha He Hadm Hl. pose proof roundoff_pos as U. pose proof (loss_small n e ltac:(lra) Hl) as Hs. pose proof tiny_pos as T. assert (T1 : tiny <= 1). { unfold tiny. rewrite <- Rinv_1. apply Rinv_le_contravar; [lra|]. apply pow_R1_Rle. lra. }
  destruct Hadm as [Hle Hev]. set (m := Z.to_nat (Z.abs l)). assert (Em : Z.abs l = Z.of_nat m) by (unfold m; lia).
  assert (Ev : Nat.even (n - m) = true). { apply Nat.even_spec. destruct Hev as [k Hk]. destruct (Z.le_ge_cases 0 l) as [L|L]; [exists (Z.to_nat k); lia|]. exists (Z.to_nat (k - Z.of_nat m)). lia. }
  destruct (R_err e lm n m Ha He ltac:(lia) Ev Hl) as (r & r64 & Er & Er64 & Hr).
  assert (N0 : (0 <=? Z.of_nat n)%Z = true) by (apply Z.leb_le; lia).
  assert (K : forall (f f64 : R -> R), (forall x, Rabs (f64 x - f x) <= e) -> (forall x y, Rabs (f x - f y) <= Rabs (x - y)) -> (forall x, Rabs (f x) <= 1) ->
     forall x t, 0 <= x <= 1 -> Rabs t <= PI -> Rabs (fl (r64 x * f64 (fl (IZR (Z.of_nat m) * t))) - r x * f (IZR (Z.of_nat m) * t)) <= loss n * e).
  { intros f f64 Hf Lf Bf x t Hx Ht. rewrite <- INR_IZR_INZ. destruct (Hr x Hx) as [B E]. set (k1 := (36 / 5 + 3 / 5 * INR n) * (5 / 2) ^ n) in *.
    pose proof (angle_err e f f64 n m t He Hs Hf Lf ltac:(lia) Ht) as A. pose proof (pos_INR n) as Pn. pose proof (bernoulli n) as Bn. assert (P1 : 1 <= (5 / 2) ^ n) by (apply pow_R1_Rle; lra).
    assert (KL : k1 + 11 / 10 * (11 / 10 + 4 * INR n) + 6 / 5 <= loss n). { unfold k1, loss. nra. }
    assert (K1 : (k1 + 11 / 10 * (11 / 10 + 4 * INR n)) * e <= / 10). { assert ((k1 + 11 / 10 * (11 / 10 + 4 * INR n)) * e <= loss n * e) by (apply Rmult_le_compat_r; lra). lra. }
    assert (K2 : k1 * e <= / 10). { assert (0 <= 11 / 10 * (11 / 10 + 4 * INR n) * e) by (apply Rmult_le_pos; lra). lra. }
    assert (M : Rabs (r64 x * f64 (fl (INR m * t)) - r x * f (INR m * t)) <= (k1 + 11 / 10 * (11 / 10 + 4 * INR n)) * e * (1 * 1)).
    { apply mul_step; try lra; [apply Bf]. }
    assert (Bd : Rabs (r x * f (INR m * t)) <= 1). { rewrite Rabs_mult, <- (Rmult_1_r 1). apply Rmult_le_compat; try apply Rabs_pos; [exact B|apply Bf]. }
    rewrite (Rmult_1_r 1) in M. pose proof (fl_step e _ 1 _ _ He Hs M Bd T1 K1) as F. eapply Rle_trans; [exact F|]. rewrite Rmult_1_r. apply Rmult_le_compat_r; lra. }
  destruct Ha as (_ & Hc & Hsn).
  unfold zernike_U, zernike_U64. cbn [as_int py_ge0 bind]. rewrite N0. unfold zernike_U_int, zernike_U64_int. rewrite Em, Er, Er64. cbn [bind]. destruct (Z.ltb l 0).
  - do 2 eexists. split; [reflexivity|]. split; [reflexivity|]. intros x t Hx Ht. cbv beta. apply (K sin (lm_sin lm)); try assumption; [exact sin_lip|intros y; apply Rabs_le; pose proof (SIN_bound y); lra].
  - do 2 eexists. split; [reflexivity|]. split; [reflexivity|]. intros x t Hx Ht. cbv beta. apply (K cos (lm_cos lm)); try assumption; [exact cos_lip|intros y; apply Rabs_le; pose proof (COS_bound y); lra].
Qed.

Lemma loss_mono k n : (k <= n)%nat -> loss k <= loss n.
Proof.
  intros H. unfold loss. pose proof (le_INR _ _ H). pose proof (pos_INR k). apply Rmult_le_compat; [lra|apply pow_le; lra|lra|apply Rle_pow; [lra|exact H]].
Qed.

Definition wf64_term (lm : libm) (K : list R) (nl : list (Z * Z)) (i : nat) : res (R -> R -> R) :=
  bind (py_get K i) (fun Ki => bind (py_get nl i) (fun '(n', l') => bind (zernike_U64 lm (PyInt n') (PyInt l')) (fun Unl => Ok (fun rho theta => fl (Ki * Unl rho theta))))).

Lemma total_abs_sum K : total_abs K = Rsum (length K) (fun i => Rabs (nth i K 0)).
Proof. induction K as [|x K IH]; [reflexivity|]. unfold total_abs in *. cbn [fold_right length]. rewrite IH, Rsum_Sl. reflexivity. Qed.

Lemma W_err e lm (n : nat) K : accurate e lm -> unit_roundoff <= e -> (2 * length K = (n + 1) * (n + 2))%nat -> (8 * Z.of_nat (length K) + 1 < 2 ^ 53)%Z -> loss n * e <= / 100 ->
  exists W W64, wavefront K = Ok W /\ wavefront64 lm K = Ok W64 /\
    forall x t, 0 <= x <= 1 -> Rabs t <= PI -> Rabs (W64 x t - W x t) <= 2 * loss n * e * (total_abs K + INR (length K) * tiny).
Proof.
  intros Ha He HL H53 Hl. pose proof roundoff_pos as U. pose proof (loss_small n e ltac:(lra) Hl) as Hs. pose proof tiny_pos as T.
  destruct (wavefront_flat K n HL) as (W & EW & VW). pose proof (nl_list_length_nat n) as NL.
  assert (Ht : forall i, (i < length K)%nat -> exists g64, wf64_term lm K (nl_list (Z.of_nat n)) i = Ok g64 /\
     forall x t, 0 <= x <= 1 -> Rabs t <= PI -> Rabs (g64 x t - nth i K 0 * Uval (nth i (nl_list (Z.of_nat n)) (0, 0)%Z) x t) <= (loss n + 6 / 5) * e * (Rabs (nth i K 0) + tiny) /\ Rabs (nth i K 0 * Uval (nth i (nl_list (Z.of_nat n)) (0, 0)%Z) x t) <= Rabs (nth i K 0) + tiny).
  { intros i Hi. unfold wf64_term, py_get. rewrite (nth_error_nth' K 0 Hi). cbn [bind]. rewrite (nth_error_nth' (nl_list (Z.of_nat n)) (0, 0)%Z) by lia. cbn [bind].
    destruct (nth i (nl_list (Z.of_nat n)) (0, 0)%Z) as [n' l'] eqn:E. assert (Hin : In (n', l') (nl_list (Z.of_nat n))) by (rewrite <- E; apply nth_In; lia).
    apply nl_list_in in Hin as Hin'. destruct Hin' as (Hle & Hll & Hev).
    assert (Adm : admissible (Z.of_nat (Z.to_nat n')) l'). { rewrite Z2Nat.id by lia. split; [lia|]. exact Hev. }
    assert (Hl' : loss (Z.to_nat n') * e <= loss n * e) by (apply Rmult_le_compat_r; [lra|apply loss_mono; lia]).
    destruct (U_err e lm (Z.to_nat n') l' Ha He Adm ltac:(lra)) as (g & g64 & Eg & Eg64 & Hg). rewrite Z2Nat.id in * by lia. rewrite Eg64. cbn [bind]. eexists. split; [reflexivity|].
    intros x t Hx Htt. cbv beta. set (k := nth i K 0).
    assert (UV : Uval (n', l') x t = g x t). { unfold Uval. cbn [fst snd]. rewrite U_api in Eg by lia. rewrite Eg. reflexivity. } rewrite UV.
    assert (BU : Rabs (g x t) <= 1). { destruct (U_bound n' l' Adm) as (g' & E' & B'). rewrite Eg in E'. apply Ok_inj in E'. subst g'. apply B'. lra. }
    assert (B : Rabs (k * g x t) <= Rabs k + tiny). { rewrite Rabs_mult. pose proof (Rabs_pos k). pose proof (Rabs_pos (g x t)). assert (Rabs k * Rabs (g x t) <= Rabs k * 1) by (apply Rmult_le_compat_l; lra). lra. }
    split; [|exact B]. apply fl_step; try assumption; [|pose proof (Rabs_pos k); lra|lra].
    rewrite <- Rmult_minus_distr_l, Rabs_mult. rewrite (Rmult_comm (loss n * e)). pose proof (Hg x t Hx Htt). apply Rmult_le_compat; try apply Rabs_pos; [lra|lra]. }
  destruct (mapM_exists (wf64_term lm K (nl_list (Z.of_nat n))) (length K)) as (l & El & Ll & Fl). { intros i Hi. destruct (Ht i Hi) as (g & Eg & _). eauto. }
  exists W. eexists. split; [exact EW|]. split.
  - unfold wavefront64. cbv zeta. rewrite (order64_ok _ H53), (order_of_triangular n) by exact HL. change (mapM _ (seq 0 (length K))) with (mapM (wf64_term lm K (nl_list (Z.of_nat n))) (seq 0 (length K))). rewrite El. cbn [bind].
    destruct l as [|y l]; [cbn [length] in Ll; nia|]. reflexivity.
  - intros x t Hx Htt. cbv beta. rewrite VW. unfold Wflat.
    assert (El' : map (fun g => g x t) l = map (fun i => nth i l (fun _ _ => 0) x t) (seq 0 (length K))).
    { rewrite <- Ll. clear. induction l as [|y l IH]; [reflexivity|]. cbn [map length seq]. f_equal. rewrite <- seq_shift, map_map. exact IH. }
    rewrite El'.
    pose proof (pos_INR n) as Pn. pose proof (bernoulli n) as Bn. assert (P1 : 1 <= (5 / 2) ^ n) by (apply pow_R1_Rle; lra).
    assert (NK : 2 * INR (length K) = (INR n + 1) * (INR n + 2)). { assert (X : INR (2 * length K) = INR ((n + 1) * (n + 2))) by (rewrite HL; reflexivity). rewrite !mult_INR, !plus_INR in X. cbn [INR] in X. lra. }
    assert (KL : loss n + 6 / 5 + 6 / 5 * INR (length K) <= 2 * loss n). { assert (6 / 5 + 6 / 5 * INR (length K) <= loss n); [|lra]. unfold loss. nra. }
    assert (KE : (loss n + 6 / 5 + 6 / 5 * INR (length K)) * e <= / 10). { assert ((loss n + 6 / 5 + 6 / 5 * INR (length K)) * e <= 2 * loss n * e) by (apply Rmult_le_compat_r; lra). lra. }
    assert (L0 : 0 <= loss n) by (unfold loss; apply Rmult_le_pos; lra).
    eapply Rle_trans; [apply (sum_step e (loss n + 6 / 5) _ _ (fun i => Rabs (nth i K 0) + tiny) (length K) He Hs ltac:(lra))|].
    + intros i Hi. destruct (Ht i Hi) as (g64 & Eg & Hg). destruct (Fl i Hi) as (v & Ev & Nv). rewrite Eg in Ev. apply Ok_inj in Ev. subst v. rewrite (nth_error_nth _ _ _ Nv).
      destruct (Hg x t Hx Htt) as [A B]. split; [exact A|]. split; [exact B|]. pose proof (Rabs_pos (nth i K 0)). lra.
    + exact KE.
    + rewrite Rsum_plus, Rsum_const, <- total_abs_sum. apply Rmult_le_compat_r; [|apply Rmult_le_compat_r; lra].
      apply Rplus_le_le_0_compat; [|apply Rmult_le_pos; [apply pos_INR|lra]]. rewrite total_abs_sum. apply Rsum_nonneg. intros. apply Rabs_pos.
Qed.

(** The computation fails where the exact one does, in the same way. *)
Definition alike {A B} (r : res A) (r' : res B) : Prop := forall er, r = Err er <-> r' = Err er.
Lemma alike_ok {A B} (x : A) (y : B) : alike (Ok x) (Ok y). Proof. intros er. split; discriminate. Qed.
Lemma alike_err {A B} er : @alike A B (Err er) (Err er). Proof. intros er'. split; intros H; injection H as ->; reflexivity. Qed.
Lemma alike_bind {A B A' B'} (r : res A) (r' : res A') (f : A -> res B) (f' : A' -> res B') : alike r r' -> (forall x x', r = Ok x -> r' = Ok x' -> alike (f x) (f' x')) -> alike (bind r f) (bind r' f').
Proof.
  intros H Hf. destruct r as [x|er], r' as [x'|er']; cbn [bind].
  - apply Hf; reflexivity.
  - pose proof (proj2 (H er') eq_refl) as X. discriminate X.
  - pose proof (proj1 (H er) eq_refl) as X. discriminate X.
  - pose proof (proj1 (H er) eq_refl) as X. injection X as ->. apply alike_err.
Qed.
Lemma alike_refl {A} (r : res A) : alike r r. Proof. intros er. reflexivity. Qed.
Lemma alike_mapM {I A B} (f : I -> res A) (g : I -> res B) l : (forall i, alike (f i) (g i)) -> alike (mapM f l) (mapM g l).
Proof.
  intros H. induction l as [|i l IH]; [apply alike_ok|]. cbn [mapM]. apply alike_bind; [apply H|]. intros x x' _ _. apply alike_bind; [exact IH|]. intros. apply alike_ok.
Qed.
Lemma alike_U lm n l : alike (zernike_U n l) (zernike_U64 lm n l).
Proof.
  assert (Z : forall n' l', alike (zernike_U_int n' l') (zernike_U64_int lm n' l')).
  { intros n' l'. unfold zernike_U_int, zernike_U64_int. apply alike_bind.
    - unfold zernike_R, zernike_R64. apply alike_bind; [|intros; apply alike_ok]. apply alike_mapM. intros s. unfold R_term, R_term64.
      repeat (apply alike_bind; [apply alike_refl|intros ? ? _ _]). apply alike_ok.
    - intros. destruct (Z.ltb l' 0); apply alike_ok. }
  unfold zernike_U, zernike_U64. destruct (as_int l) as [l'|]; [|apply alike_err]. apply alike_bind; [apply alike_refl|]. intros x x' E E'. rewrite E in E'. apply Ok_inj in E'. subst x'.
  destruct (if x then as_int n else None); [apply Z|apply alike_err].
Qed.
Lemma mapM_length_eq {I A} (f : I -> res A) l : forall r, mapM f l = Ok r -> length r = length l.
Proof.
  induction l as [|i l IH]; intros r H; [apply Ok_inj in H; subst; reflexivity|]. cbn [mapM] in H. destruct (f i); cbn [bind] in H; [|discriminate]. destruct (mapM f l) eqn:E; cbn [bind] in H; [|discriminate]. apply Ok_inj in H. subst r. cbn. f_equal. apply IH. reflexivity.
Qed.
Lemma alike_W lm K : (8 * Z.of_nat (length K) + 1 < 2 ^ 53)%Z -> alike (wavefront K) (wavefront64 lm K).
Proof.
  intros H. unfold wavefront, wavefront64. cbv zeta. rewrite (order64_ok _ H). apply alike_bind.
  - apply alike_mapM. intros i. apply alike_bind; [apply alike_refl|]. intros k k' _ _. apply alike_bind; [apply alike_refl|]. intros [n l] [n' l'] E E'. rewrite E in E'. apply Ok_inj in E'. injection E' as <- <-.
    apply alike_bind; [apply alike_U|]. intros. apply alike_ok.
  - intros x x' E E'. apply mapM_length_eq in E. apply mapM_length_eq in E'. destruct x, x'; cbn [length] in *; try apply alike_ok; try apply alike_err; exfalso; congruence.
Qed.

Lemma W_err_ten lm K n : accurate (/ 2 ^ 52) lm -> (n <= 10)%nat -> (2 * length K = (n + 1) * (n + 2))%nat ->
  exists W W64, wavefront K = Ok W /\ wavefront64 lm K = Ok W64 /\
    forall x t, 0 <= x <= 1 -> Rabs t <= PI -> Rabs (W64 x t - W x t) <= / 2 ^ 32 * (total_abs K + INR (length K) * tiny).
Proof.
  intros Ha Hn HL. assert (L10 : loss n <= 2 ^ 19). { eapply Rle_trans; [apply (loss_mono n 10 Hn)|]. unfold loss. cbn [INR]. lra. }
  assert (L0 : 0 <= loss n) by (unfold loss; apply Rmult_le_pos; [pose proof (pos_INR n); lra|apply pow_le; lra]).
  assert (E : / 2 ^ 52 = / 2 ^ 20 * / 2 ^ 32) by (rewrite <- Rinv_mult, <- pow_add; reflexivity).
  assert (P32 : 0 < / 2 ^ 32) by (apply Rinv_0_lt_compat, pow_lt; lra). assert (I20 : 2 ^ 19 * / 2 ^ 20 = / 2) by (cbn; field).
  assert (B : loss n * / 2 ^ 52 <= / 2 * / 2 ^ 32). { rewrite E, <- Rmult_assoc. apply Rmult_le_compat_r; [lra|]. rewrite <- I20. apply Rmult_le_compat_r; [|exact L10]. left. apply Rinv_0_lt_compat, pow_lt. lra. }
  assert (N66 : (length K <= 66)%nat) by nia.
  destruct (W_err (/ 2 ^ 52) lm n K Ha) as (W & W64 & E1 & E2 & H).
  - unfold unit_roundoff. apply Rinv_le_contravar; [apply pow_lt; lra|]. apply Rle_pow; [lra|lia].
  - exact HL.
  - apply Z.le_lt_trans with (8 * 66 + 1)%Z; [lia|]. reflexivity.
  - assert (/ 2 ^ 32 <= / 2 ^ 6). { apply Rinv_le_contravar; [apply pow_lt; lra|]. apply Rle_pow; [lra|lia]. } lra.
  - exists W, W64. split; [exact E1|]. split; [exact E2|]. intros x t Hx Ht. eapply Rle_trans; [apply H; assumption|]. apply Rmult_le_compat_r; [|lra].
    apply Rplus_le_le_0_compat; [|apply Rmult_le_pos; [apply pos_INR|left; apply tiny_pos]]. rewrite total_abs_sum. apply Rsum_nonneg. intros. apply Rabs_pos.
Qed.

(** A library that rounds correctly. *)
Definition correct_libm : libm := {| lm_pow := fun k x => fl (powerRZ x k); lm_cos := fun x => fl (cos x); lm_sin := fun x => fl (sin x) |}.
Lemma correct_accurate : accurate (/ 2 ^ 52) correct_libm.
Proof.
  assert (G : forall y, Rabs y <= 1 -> Rabs (fl y - y) <= / 2 ^ 52).
  { intros y Hy. eapply Rle_trans; [apply (fl_err unit_roundoff); lra|]. assert (E : / 2 ^ 52 = unit_roundoff * 2). { unfold unit_roundoff. change 53%nat with (S 52). rewrite <- tech_pow_Rmult, Rinv_mult. assert (0 < / 2 ^ 52) by (apply Rinv_0_lt_compat, pow_lt; lra). lra. }
    rewrite E. apply Rmult_le_compat_l; [left; apply roundoff_pos|]. pose proof tiny_pos. assert (T1 : tiny <= 1). { unfold tiny. rewrite <- Rinv_1. apply Rinv_le_contravar; [lra|]. apply pow_R1_Rle. lra. } lra. }
  split; [|split]; cbn [lm_pow lm_cos lm_sin correct_libm].
  - intros k x Hk Hx. apply G. replace k with (Z.of_nat (Z.to_nat k)) by lia. rewrite powerRZ_nat. pose proof (pow_unit x (Z.to_nat k) Hx). rewrite Rabs_pos_eq; lra.
  - intros x. apply G, Rabs_le. pose proof (COS_bound x). lra.
  - intros x. apply G, Rabs_le. pose proof (SIN_bound x). lra.
Qed.
