(** C08-C12 and the wavefront half of C03: wavefront and phase. *)
From Coquelicot Require Import Coquelicot.
From Flocq Require Import Core.Raux.
From Verif Require Import PyBase Sums PyLib Num MZernike PZernike SZernike PRodrigues PBound PDisk PEnum MMath MAperture PPolar.
Open Scope R_scope.

(** The value of U with integer indices (total function used in statements of
    lemmas only). *)
Definition Uval (nl : Z * Z) (rho t : R) : R :=
  match zernike_U_int (fst nl) (snd nl) with Ok g => g rho t | Err _ => 0 end.

Lemma Uval_circle (n : nat) l rho t : admissible (Z.of_nat n) l -> Uval (Z.of_nat n, l) rho t = circle n l rho t.
Proof.
  intros H. unfold Uval. cbn [fst snd]. destruct (zernike_U_int_form (Z.of_nat n) l H) as (g & E & Hn & Hg).
  rewrite E, Hg. clear E Hg g. rewrite Nat2Z.id in *.
  set (m := Z.to_nat (Z.abs l)) in *. set (b := ((n - m) / 2)%nat) in *.
  unfold circle. fold m. unfold ang. f_equal.
  unfold radial. destruct (Req_EM_T rho 0) as [->|Hr].
  - destruct (Nat.eqb_spec m 0) as [Hm|Hm].
    + rewrite Hm in *. cbn [Nat.add] in *. rewrite Rbin_zero_diag. f_equal. rewrite Hn.
      replace (b + b)%nat with (b * 2)%nat by lia. rewrite Nat.div_mul; lia.
    + apply Rbin_zero_pos. lia.
  - unfold rodrigues. fold b. replace ((n + m) / 2)%nat with (m + b)%nat.
    2:{ rewrite Hn. replace (m + b + b + m)%nat with ((m + b) * 2)%nat by lia. rewrite Nat.div_mul; lia. }
    rewrite <- (rodrigues_ab (m + b) b rho) by (try lia; assumption).
    replace (m + b - b)%nat with m by lia. reflexivity.
Qed.

(** Order inference. *)
Lemma order_of_triangular n k : (2 * k = (n + 1) * (n + 2))%nat -> order_of_size k = Z.of_nat n.
Proof.
  intros H. unfold order_of_size.
  assert (E : 1 + 8 * INR k = (2 * INR n + 3) * (2 * INR n + 3)).
  { assert (H2 : INR (2 * k) = INR ((n + 1) * (n + 2))) by (rewrite H; reflexivity).
    rewrite !mult_INR, !plus_INR in H2. cbn [INR] in H2. nra. }
  rewrite E, sqrt_square by (pose proof (pos_INR n); lra).
  replace ((2 * INR n + 3 - 3) / 2) with (INR n) by field. rewrite INR_IZR_INZ. apply Ztrunc_IZR.
Qed.

(** Between two triangular numbers the order is rounded down. *)
Lemma order_between n k : (n * (n + 1) <= 2 * k)%nat -> (2 * k < (n + 1) * (n + 2))%nat -> (0 < k)%nat -> order_of_size k = (Z.of_nat n - 1)%Z.
Proof.
  intros H1 H2 Hk. unfold order_of_size.
  assert (Hn : (1 <= n)%nat). { destruct n; [|lia]. lia. }
  assert (L1 : INR (n * (n + 1)) <= INR (2 * k)) by (apply le_INR; assumption).
  assert (L2 : INR (2 * k) < INR ((n + 1) * (n + 2))) by (apply lt_INR; assumption).
  rewrite !mult_INR, !plus_INR in *. cbn [INR] in *.
  assert (Hn' : 1 <= INR n) by (apply (le_INR 1); assumption).
  assert (S1 : 2 * INR n + 1 <= sqrt (1 + 8 * INR k)).
  { rewrite <- (sqrt_square (2 * INR n + 1)) by lra. apply sqrt_le_1_alt. nra. }
  assert (S2 : sqrt (1 + 8 * INR k) < 2 * INR n + 3).
  { rewrite <- (sqrt_square (2 * INR n + 3)) by lra. apply sqrt_lt_1_alt. split; nra. }
  rewrite Ztrunc_floor by lra. apply Zfloor_imp. rewrite minus_IZR, <- INR_IZR_INZ. rewrite plus_IZR, minus_IZR, <- INR_IZR_INZ. lra.
Qed.

Lemma triangular_bracket k : exists n, (n * (n + 1) <= 2 * k < (n + 1) * (n + 2))%nat.
Proof.
  induction k as [|k [n Hn]].
  - exists 0%nat. lia.
  - destruct (le_lt_dec ((n + 1) * (n + 2)) (2 * S k)).
    + exists (S n). nia.
    + exists n. lia.
Qed.

Definition triangular (k : nat) : Prop := exists n, (2 * k = (n + 1) * (n + 2))%nat.

Lemma mapM_index_err {A} (f : nat -> res A) n j e : (j < n)%nat ->
  (forall i, (i < j)%nat -> exists v, f i = Ok v) -> f j = Err e -> mapM f (seq 0 n) = Err e.
Proof.
  intros Hj H He. apply (mapM_err f (seq 0 n) (seq 0 j) j (seq (S j) (n - S j))); [|intros y Hy; apply in_seq in Hy; apply H; lia|assumption].
  replace n with (j + S (n - S j))%nat at 1 by lia. rewrite seq_app. reflexivity.
Qed.

Definition wf_term (K : list R) (nl : list (Z * Z)) (i : nat) : res (R -> R -> R) :=
  bind (py_get K i) (fun Ki =>
          bind (py_get nl i) (fun '(n', l') =>
          bind (zernike_U (PyInt n') (PyInt l')) (fun Unl =>
          Ok (fun rho theta => Ki * Unl rho theta)))).

Lemma wf_term_ok K n i : (i < length K)%nat -> (i < length (nl_list n))%nat ->
  exists g, wf_term K (nl_list n) i = Ok g /\ forall rho t, g rho t = nth i K 0 * Uval (nth i (nl_list n) (0, 0)%Z) rho t.
Proof.
  intros HK Hn. unfold wf_term, py_get.
  rewrite (nth_error_nth' K 0 HK). cbn [bind].
  rewrite (nth_error_nth' (nl_list n) (0, 0)%Z Hn). cbn [bind].
  destruct (nth i (nl_list n) (0, 0)%Z) as [n' l'] eqn:E.
  assert (Hin : In (n', l') (nl_list n)) by (rewrite <- E; apply nth_In; assumption).
  apply nl_list_in in Hin as (Hle & Hl & _).
  destruct (U_checked (PyInt n') (PyInt l')) as [HU _].
  destruct HU as [EU [g Hg]]; [cbn; repeat split; auto; lia|].
  rewrite Hg. cbn [bind]. eexists; split; [reflexivity|]. intros rho t. unfold Uval. cbn [fst snd].
  change (zernike_U_int n' l') with (zernike_U_int (int_val (PyInt n')) (int_val (PyInt l'))). rewrite <- EU, Hg. reflexivity.
Qed.

Lemma mapM_exists {A} (f : nat -> res A) n : (forall i, (i < n)%nat -> exists v, f i = Ok v) ->
  exists l, mapM f (seq 0 n) = Ok l /\ length l = n /\ forall i, (i < n)%nat -> exists v, f i = Ok v /\ nth_error l i = Some v.
Proof.
  induction n as [|n IH]; intros H.
  - exists []; repeat split; auto. intros; lia.
  - destruct IH as (l & E & Hl & Hf); [intros; apply H; lia|].
    destruct (H n ltac:(lia)) as [v Hv]. exists (l ++ [v]).
    assert (Happ : forall l1 l2 r1 r2, mapM f l1 = Ok r1 -> mapM f l2 = Ok r2 -> mapM f (l1 ++ l2) = Ok (r1 ++ r2)).
    { induction l1 as [|x t IHt]; cbn; intros l2 r1 r2 H1 H2; [injection H1 as <-; exact H2|].
      destruct (f x); cbn in *; [|discriminate]. destruct (mapM f t) eqn:Et; cbn in *; [|discriminate]. injection H1 as <-.
      rewrite (IHt l2 _ r2 eq_refl H2). reflexivity. }
    rewrite seq_S. repeat split.
    + apply Happ; [exact E|]. cbn. rewrite Hv. reflexivity.
    + rewrite app_length, Hl. cbn. lia.
    + intros i Hi. destruct (Nat.eq_dec i n) as [->|Hn].
      * exists v. split; [exact Hv|]. rewrite nth_error_app2 by lia. rewrite Hl, Nat.sub_diag. reflexivity.
      * destruct (Hf i ltac:(lia)) as (w & Hw & Hnth). exists w. split; [exact Hw|]. rewrite nth_error_app1 by lia. exact Hnth.
Qed.

Lemma py_sum_nth l : py_sum l = Rsum (length l) (fun i => nth i l 0).
Proof.
  induction l as [|x t IH]; [reflexivity|]. rewrite py_sum_cons, IH. cbn [length]. rewrite Rsum_Sl. reflexivity.
Qed.

(** Flat form of the wavefront. *)
Definition Wflat (n : Z) (K : list R) (rho t : R) : R :=
  Rsum (length K) (fun i => nth i K 0 * Uval (nth i (nl_list n) (0, 0)%Z) rho t).

Lemma wavefront_flat K n : (2 * length K = (n + 1) * (n + 2))%nat ->
  exists W, wavefront K = Ok W /\ forall rho t, W rho t = Wflat (Z.of_nat n) K rho t.
Proof.
  intros H. unfold wavefront. rewrite (order_of_triangular n) by assumption.
  pose proof (nl_list_length_nat n) as HL.
  destruct (mapM_exists (wf_term K (nl_list (Z.of_nat n))) (length K)) as (l & E & Hl & Hf).
  { intros i Hi. destruct (wf_term_ok K (Z.of_nat n) i Hi ltac:(lia)) as (g & Eg & _). eauto. }
  change (mapM _ (seq 0 (length K))) with (mapM (wf_term K (nl_list (Z.of_nat n))) (seq 0 (length K))).
  rewrite E. cbn [bind]. destruct l as [|g0 l0]; [cbn in Hl; lia|]. eexists; split; [reflexivity|].
  set (l := g0 :: l0) in *. intros rho t. cbv beta. rewrite py_sum_nth, map_length, Hl. unfold Wflat. apply Rsum_ext. intros i Hi.
  destruct (Hf i Hi) as (v & Hv & Hnth). destruct (wf_term_ok K (Z.of_nat n) i Hi ltac:(lia)) as (g & Eg & Hg).
  rewrite Eg in Hv. injection Hv as <-. rewrite <- Hg.
  apply nth_error_nth. rewrite nth_error_map, Hnth. reflexivity.
Qed.

Lemma wavefront_bad K : K <> [] -> ~ triangular (length K) -> wavefront K = Err IndexError.
Proof.
  intros HK Ht. unfold wavefront. destruct (triangular_bracket (length K)) as [n [H1 H2]].
  assert (Hpos : (0 < length K)%nat) by (destruct K; [congruence|cbn; lia]).
  rewrite (order_between n) by assumption.
  assert (Hn : (1 <= n)%nat) by (destruct n; lia).
  pose proof (nl_list_length_nat (n - 1)) as HL.
  replace (Z.of_nat n - 1)%Z with (Z.of_nat (n - 1)) by lia.
  assert (Hlt : (length (nl_list (Z.of_nat (n - 1))) < length K)%nat).
  { assert (2 * length (nl_list (Z.of_nat (n - 1))) <> 2 * length K)%nat; [|nia].
    intros E. apply Ht. exists (n - 1)%nat. lia. }
  change (mapM _ (seq 0 (length K))) with (mapM (wf_term K (nl_list (Z.of_nat (n - 1)))) (seq 0 (length K))).
  rewrite (mapM_index_err _ _ (length (nl_list (Z.of_nat (n - 1)))) IndexError); [reflexivity|assumption| |].
  - intros i Hi. destruct (wf_term_ok K (Z.of_nat (n - 1)) i ltac:(lia) Hi) as (g & Eg & _). eauto.
  - unfold wf_term, py_get. rewrite (nth_error_nth' K 0) by assumption. cbn [bind].
    assert (Hnone : nth_error (nl_list (Z.of_nat (n - 1))) (length (nl_list (Z.of_nat (n - 1)))) = None) by (apply nth_error_None; lia).
    rewrite Hnone. reflexivity.
Qed.

Lemma wavefront_nil : wavefront [] = Err AttributeError.
Proof. reflexivity. Qed.

Lemma sum_upto_Rsum n f : sum_upto n f = Rsum (S n) f.
Proof. induction n as [|n IH]; [cbn; ring|]. cbn [sum_upto]. rewrite IH. reflexivity. Qed.

Lemma admissible_row i k : (k <= i)%nat -> admissible (Z.of_nat i) (2 * Z.of_nat k - Z.of_nat i).
Proof. intros H. split; [lia|]. exists (Z.of_nat i - Z.of_nat k)%Z. lia. Qed.

Lemma coeff_pos_row i k : (2 * coeff_pos i (2 * Z.of_nat k - Z.of_nat i) = i * (i + 1) + 2 * k)%nat.
Proof.
  unfold coeff_pos.
  replace (Z.of_nat i * (Z.of_nat i + 2) + (2 * Z.of_nat k - Z.of_nat i))%Z with (Z.of_nat i * (Z.of_nat i + 1) + Z.of_nat k * 2)%Z by ring.
  rewrite Z.div_add by lia.
  assert (He : (Z.of_nat i * (Z.of_nat i + 1) mod 2 = 0)%Z).
  { apply Z.mod_divide; [lia|]. destruct (Z.Even_or_Odd (Z.of_nat i)) as [[q Hq]|[q Hq]]; rewrite Hq.
    - exists (q * (2 * q + 1))%Z; ring.
    - exists ((2 * q + 1) * (q + 1))%Z; ring. }
  pose proof (Z_div_mod_eq_full (Z.of_nat i * (Z.of_nat i + 1)) 2) as E. rewrite He in E. nia.
Qed.

Lemma zernike_series_S n K rho t : zernike_series (S n) K rho t = zernike_series n K rho t +
  sum_upto (S n) (fun k => let l := (2 * Z.of_nat k - Z.of_nat (S n))%Z in K (S n) l * circle (S n) l rho t).
Proof. reflexivity. Qed.

(** Flat sum to double sum over rows. *)
Lemma Wflat_series (f : nat -> R) (nmax n : nat) rho t N : (n <= nmax)%nat -> (2 * N = (n + 1) * (n + 2))%nat ->
  Rsum N (fun i => f i * Uval (nth i (nl_list (Z.of_nat nmax)) (0, 0)%Z) rho t) =
  zernike_series n (fun i l => f (coeff_pos i l)) rho t.
Proof.
  revert N; induction n as [|n IH]; intros N Hn HN.
  - assert (N = 1)%nat by lia. subst N. unfold zernike_series. cbn [sum_upto Rsum].
    rewrite Rplus_0_l. rewrite <- Uval_circle by (apply (admissible_row 0 0); lia).
    pose proof (nl_list_nth (Z.of_nat nmax) 0 0 ltac:(lia) ltac:(apply (admissible_row 0 0); lia)) as E.
    change (Z.to_nat ((0 * (0 + 2) + 0) / 2)) with 0%nat in E.
    rewrite (nth_error_nth _ _ _ E). reflexivity.
  - assert (HN' : exists M, (2 * M = (n + 1) * (n + 2) /\ N = M + S (S n))%nat).
    { exists (N - S (S n))%nat. lia. }
    destruct HN' as (M & HM & ->). rewrite Rsum_app, (IH M) by (try lia; assumption).
    rewrite zernike_series_S. f_equal.
    rewrite (sum_upto_Rsum (S n)). apply Rsum_ext. intros k Hk.
    assert (Hp : coeff_pos (S n) (2 * Z.of_nat k - Z.of_nat (S n)) = (M + k)%nat).
    { pose proof (coeff_pos_row (S n) k). lia. }
    cbv zeta. rewrite Hp. f_equal. rewrite <- Uval_circle by (apply admissible_row; lia).
    pose proof (nl_list_nth (Z.of_nat nmax) (Z.of_nat (S n)) (2 * Z.of_nat k - Z.of_nat (S n)) ltac:(lia) ltac:(apply admissible_row; lia)) as E.
    change (Z.to_nat ((Z.of_nat (S n) * (Z.of_nat (S n) + 2) + (2 * Z.of_nat k - Z.of_nat (S n))) / 2)) with (coeff_pos (S n) (2 * Z.of_nat k - Z.of_nat (S n))) in E.
    rewrite Hp in E. rewrite (nth_error_nth _ _ _ E). reflexivity.
Qed.

Lemma wavefront_series K n : (2 * length K = (n + 1) * (n + 2))%nat ->
  exists W, wavefront K = Ok W /\ forall rho t, W rho t = zernike_series n (fun i l => nth (coeff_pos i l) K 0) rho t.
Proof.
  intros H. destruct (wavefront_flat K n H) as (W & E & HW). exists W; split; [exact E|].
  intros rho t. rewrite HW. unfold Wflat. apply (Wflat_series (fun i => nth i K 0) n n); [lia|assumption].
Qed.
