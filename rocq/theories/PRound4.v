(** Rounding errors of sums in any order, and of rms and e_rs. *)
From Coq Require Import Reals List Permutation Lra Lia.
From Verif Require Import PyBase PyLib Num MMath MAperture SFloat MFloat MFloat2 SRound SRound2 PRms POrder64 PRound PSim.
Import ListNotations.
Open Scope R_scope.

Notation u := unit_roundoff.
Definition T : R := tiny / 100.
Lemma T_pos : 0 < T.
Proof. unfold T. pose proof tiny_pos. lra. Qed.
Lemma fl_u x : Rabs (fl x - x) <= u * (Rabs x + T).
Proof. apply fl_err. lra. Qed.
Lemma fl_pos x : 0 <= x -> 0 <= fl x.
Proof. intros H. rewrite <- POrder64.fl_0. apply fl_le, H. Qed.

Definition total (l : list R) : R := fold_right Rplus 0 l.
Lemma total_app a b : total (a ++ b) = total a + total b.
Proof. unfold total. induction a as [|x a IH]; cbn [app fold_right]; [lra|]. rewrite IH. lra. Qed.
Lemma total_perm a b : Permutation a b -> total a = total b.
Proof. unfold total. induction 1; cbn [fold_right]; lra. Qed.
Lemma total_zero k : total (repeat 0 k) = 0.
Proof. unfold total. induction k as [|k IH]; cbn [repeat fold_right]; [reflexivity|]. rewrite IH. lra. Qed.

(** Relative growth after k operations. *)
Definition gr (k : nat) : R := (1 + u) ^ k - 1.
Lemma gr_S k : gr (S k) = (1 + u) * gr k + u.
Proof. unfold gr. cbn [pow]. ring. Qed.
Lemma gr_pos k : 0 <= gr k.
Proof. induction k as [|k IH]; [unfold gr; cbn; lra|]. rewrite gr_S. pose proof roundoff_pos. nra. Qed.
Lemma gr_mono k m : (k <= m)%nat -> gr k <= gr m.
Proof. induction 1 as [|m H IH]; [lra|]. rewrite gr_S. pose proof (gr_pos m). pose proof roundoff_pos. nra. Qed.

(** One rounded operation on a number with an error. *)
Lemma op_err k x y w : Rabs (x - y) <= gr k * w -> Rabs y + T <= w -> Rabs (fl x - y) <= gr (S k) * w.
Proof.
  intros H W. rewrite gr_S. pose proof (fl_u x) as F. pose proof roundoff_pos. pose proof T_pos.
  assert (A : Rabs x <= Rabs y + gr k * w). { replace x with (y + (x - y)) by ring. eapply Rle_trans; [apply Rabs_triang|]. lra. }
  replace (fl x - y) with ((fl x - x) + (x - y)) by ring. eapply Rle_trans; [apply Rabs_triang|]. nra.
Qed.

Fixpoint nodes (t : adding) : nat := match t with One _ => 1%nat | Plus a b => S (nodes a + nodes b) end.
Lemma nodes_summands t : (nodes t + 1 = 2 * length (summands t))%nat.
Proof. induction t as [x|a IHa b IHb]; cbn [nodes summands]; [reflexivity|]. rewrite app_length. lia. Qed.

(** The summands carry one rounding each. *)
Lemma tree_err (f g : R -> R) : (forall x, 0 <= g x /\ Rabs (f x - g x) <= u * (g x + T)) -> forall t,
  0 <= total (map g (summands t)) /\ Rabs (add64 (each64 f t) - total (map g (summands t))) <= gr (S (depth t)) * (total (map g (summands t)) + INR (nodes t) * T).
Proof.
  intros H. induction t as [x|a IHa b IHb].
  - cbn [summands map add64 each64 depth nodes]. destruct (H x) as [H1 H2]. unfold total. cbn [fold_right]. split; [lra|]. rewrite gr_S. unfold gr. cbn [pow INR].
    replace (g x + 0) with (g x) by ring. replace ((1 + u) * (1 - 1) + u) with u by ring. replace (1 * T) with T by ring. exact H2.
  - cbn [summands] in *. rewrite map_app, total_app. destruct IHa as [Pa Ea], IHb as [Pb Eb].
    set (sa := total (map g (summands a))) in *. set (sb := total (map g (summands b))) in *. split; [lra|]. cbn [add64 each64 depth nodes]. rewrite S_INR, plus_INR.
    pose proof (gr_mono (S (depth a)) (S (Nat.max (depth a) (depth b))) ltac:(lia)) as Ga. pose proof (gr_mono (S (depth b)) (S (Nat.max (depth a) (depth b))) ltac:(lia)) as Gb.
    pose proof (pos_INR (nodes a)) as Na. pose proof (pos_INR (nodes b)) as Nb. pose proof T_pos.
    assert (0 <= INR (nodes a) * T) by (apply Rmult_le_pos; lra). assert (0 <= INR (nodes b) * T) by (apply Rmult_le_pos; lra).
    set (k := S (Nat.max (depth a) (depth b))) in *. pose proof (gr_pos k). set (x := add64 (each64 f a)) in *. set (y := add64 (each64 f b)) in *.
    apply op_err.
    + replace (x + y - (sa + sb)) with ((x - sa) + (y - sb)) by ring. eapply Rle_trans; [apply Rabs_triang|].
      assert (Rabs (x - sa) <= gr k * (sa + INR (nodes a) * T)) by (eapply Rle_trans; [exact Ea|]; apply Rmult_le_compat_r; lra).
      assert (Rabs (y - sb) <= gr k * (sb + INR (nodes b) * T)) by (eapply Rle_trans; [exact Eb|]; apply Rmult_le_compat_r; lra). nra.
    + rewrite Rabs_pos_eq by lra. nra.
Qed.

Lemma sqrt_1m g : 0 <= g <= 1 -> 1 - g <= sqrt (1 - g).
Proof. intros H. rewrite <- (sqrt_square (1 - g)) at 1 by lra. apply sqrt_le_1_alt. nra. Qed.
Lemma sqrt_1p g : 0 <= g -> sqrt (1 + g) <= 1 + g.
Proof. intros H. rewrite <- (sqrt_square (1 + g)) at 2 by lra. apply sqrt_le_1_alt. nra. Qed.
Lemma sqrt_add a b : 0 <= a -> 0 <= b -> sqrt (a + b) <= sqrt a + sqrt b.
Proof.
  intros Ha Hb. pose proof (sqrt_pos a). pose proof (sqrt_pos b). rewrite <- (sqrt_square (sqrt a + sqrt b)) by lra. apply sqrt_le_1_alt.
  pose proof (sqrt_sqrt a Ha). pose proof (sqrt_sqrt b Hb). nra.
Qed.

Lemma sqrt_err g c q m : 0 <= g <= 1 -> 0 <= c -> 0 <= q -> 0 <= m -> Rabs (q - m) <= g * (m + c) -> Rabs (sqrt q - sqrt m) <= g * sqrt m + 3 * sqrt c.
Proof.
  intros Hg Hc Hq Hm H. pose proof (sqrt_pos m). pose proof (sqrt_pos c). pose proof (sqrt_pos q). pose proof (sqrt_add m c Hm Hc) as A. pose proof (sqrt_add q c Hq Hc) as B.
  assert (C : sqrt (q + c) <= (1 + g) * sqrt (m + c)).
  { eapply Rle_trans; [|apply Rmult_le_compat_r; [apply sqrt_pos|apply sqrt_1p; lra]]. rewrite <- sqrt_mult by nra. apply sqrt_le_1_alt. apply Rabs_le_iff in H. nra. }
  assert (D : (1 - g) * sqrt (m + c) <= sqrt (q + c)).
  { eapply Rle_trans; [apply Rmult_le_compat_r; [apply sqrt_pos|apply sqrt_1m; lra]|]. rewrite <- sqrt_mult by nra. apply sqrt_le_1_alt. apply Rabs_le_iff in H. nra. }
  assert (E : sqrt m <= sqrt (m + c)) by (apply sqrt_le_1_alt; lra). assert (F : sqrt q <= sqrt (q + c)) by (apply sqrt_le_1_alt; lra).
  apply Rabs_le. split; nra.
Qed.

Lemma gr_bound k : INR k * u <= 1 -> gr k <= 2 * INR k * u.
Proof.
  unfold gr. pose proof roundoff_pos as U.
  assert (X : forall k, INR k * u <= 1 -> (1 + u) ^ k <= 1 + INR k * u + (INR k * u) ^ 2).
  { induction k0 as [|j IH]; intros H; [cbn; lra|]. rewrite S_INR in *. cbn [pow]. pose proof (pos_INR j) as J. specialize (IH ltac:(nra)).
    assert (0 <= INR j * u) by nra. set (z := INR j * u) in *. replace ((INR j + 1) * u) with (z + u) in * by (unfold z; ring). assert (z <= 1) by lra.
    apply Rle_trans with ((1 + u) * (1 + z + z ^ 2)); [apply Rmult_le_compat_l; lra|].
    assert (0 <= u * (z * (1 - z) + u)) by (apply Rmult_le_pos; [lra|]; assert (0 <= z * (1 - z)) by (apply Rmult_le_pos; lra); lra). nra. }
  intros H. specialize (X k H). pose proof (pos_INR k). assert (0 <= INR k * u) by nra. nra.
Qed.

Lemma square_err x : 0 <= x ^ 2 /\ Rabs (square64 x - x ^ 2) <= u * (x ^ 2 + T).
Proof. assert (0 <= x ^ 2) by nra. split; [assumption|]. unfold square64. replace (x ^ 2) with (x * x) in * by ring. pose proof (fl_u (x * x)) as F. rewrite (Rabs_pos_eq (x * x)) in F by lra. exact F. Qed.
Lemma total_py l : py_sum l = total l.
Proof. unfold py_sum. rewrite <- fold_left_rev_right. rewrite (total_perm l (rev l) (Permutation_rev l)). unfold total. induction (rev l) as [|x t IH]; cbn [fold_right]; [reflexivity|]. rewrite IH. lra. Qed.
Lemma rms_list m : concat m <> [] -> rms_plain (map (map Fin) m) = Fin (sqrt (total (map (fun x => x ^ 2) (concat m)) / INR (length (concat m)))).
Proof. intros H. unfold rms_plain. rewrite concat_map_map. rewrite rms_flat_value; [|destruct (concat m); [congruence|discriminate]|apply no_inf_Fin]. rewrite vals_Fin, map_length, total_py. reflexivity. Qed.

Lemma div_pos' a b : 0 <= a -> 0 < b -> 0 <= a / b.
Proof. intros H1 H2. apply Rmult_le_pos; [exact H1|left; apply Rinv_0_lt_compat, H2]. Qed.
Lemma u_small : u <= / 2 ^ 53. Proof. unfold unit_roundoff. lra. Qed.

Lemma rms_err m t : concat m <> [] -> INR (length (concat m)) <= 2 ^ 50 -> INR (depth t) <= 2 ^ 50 -> adds t (concat m) ->
  exists r, rms_plain (map (map Fin) m) = Fin r /\ 0 <= r /\ Rabs (rms64 t (length (concat m)) - r) <= (INR (depth t) + 4) * / 2 ^ 52 * r + / 2 ^ 400.
Proof.
  intros Hm Hn Hd (k & Hk & P). eexists. split; [apply rms_list, Hm|]. split; [apply sqrt_pos|]. set (l := concat m) in *.
  assert (Es : total (map (fun x => x ^ 2) (summands t)) = total (map (fun x => x ^ 2) l)).
  { rewrite (total_perm _ _ (Permutation_map (fun x => x ^ 2) P)), map_app, total_app. replace (map (fun x => x ^ 2) (repeat 0 k)) with (repeat 0 k) by (clear; induction k as [|k IH]; [reflexivity|cbn [repeat map]; rewrite <- IH; f_equal; ring]). rewrite total_zero. lra. }
  destruct (tree_err square64 (fun x => x ^ 2) square_err t) as [Sp E]. rewrite Es in *. set (s := total (map (fun x => x ^ 2) l)) in *.
  assert (L : length (summands t) = (length l + k)%nat) by (rewrite (Permutation_length P), app_length, repeat_length; reflexivity).
  pose proof (nodes_summands t) as N. rewrite L in N. assert (N4 : (nodes t <= 4 * length l)%nat) by lia.
  pose proof roundoff_pos as U. pose proof T_pos as Tp. assert (Ln : 0 < INR (length l)) by (apply len_pos, Hm). set (n := INR (length l)) in *.
  assert (Nn : INR (nodes t) <= 4 * n) by (unfold n; replace 4 with (INR 4) by (cbn; lra); rewrite <- mult_INR; apply le_INR, N4).
  assert (Fn : fl n = n). { unfold n. rewrite INR_IZR_INZ. apply fl_int. rewrite Z.abs_eq by lia. apply lt_IZR. rewrite <- INR_IZR_INZ. fold n. apply Rle_lt_trans with (1 := Hn). change (2 ^ 53)%Z with 9007199254740992%Z. lra. }
  set (d := depth t) in *.
  assert (Q1 : Rabs (fl (add64 (each64 square64 t) / fl n) - s / n) <= gr (S (S d)) * (s / n + 5 * T)).
  { rewrite Fn. assert (0 <= s / n) by (apply div_pos'; lra). apply op_err.
    - replace (add64 (each64 square64 t) / n - s / n) with ((add64 (each64 square64 t) - s) / n) by (field; lra). unfold Rdiv at 1. rewrite Rabs_mult, (Rabs_pos_eq (/ n)) by (left; apply Rinv_0_lt_compat, Ln).
      apply Rle_trans with (gr (S d) * (s + INR (nodes t) * T) * / n); [apply Rmult_le_compat_r; [left; apply Rinv_0_lt_compat, Ln|exact E]|].
      rewrite Rmult_assoc. apply Rmult_le_compat_l; [apply gr_pos|]. replace (s / n + 5 * T) with ((s + 5 * n * T) * / n) by (field; lra). apply Rmult_le_compat_r; [left; apply Rinv_0_lt_compat, Ln|]. nra.
    - rewrite Rabs_pos_eq by assumption. lra. }
  set (q := fl (add64 (each64 square64 t) / fl n)) in *. set (M := s / n) in *. assert (Mp : 0 <= M) by (apply div_pos'; lra).
  assert (Gs : gr (S (S (S d))) <= (INR d + 3) * / 2 ^ 52 /\ gr (S (S (S d))) <= / 2).
  { assert (G : gr (S (S (S d))) <= 2 * INR (S (S (S d))) * u).
    { apply gr_bound. rewrite !S_INR. apply Rle_trans with ((2 ^ 50 + 3) * u); [apply Rmult_le_compat_r; lra|]. unfold unit_roundoff. lra. }
    rewrite !S_INR in G. replace (2 * (INR d + 1 + 1 + 1) * u) with ((INR d + 3) * / 2 ^ 52) in G by (unfold unit_roundoff; lra). split; [exact G|]. eapply Rle_trans; [exact G|].
    apply Rle_trans with ((2 ^ 50 + 3) * / 2 ^ 52); [apply Rmult_le_compat_r; [left; apply Rinv_0_lt_compat, pow_lt; lra|lra]|lra]. }
  pose proof (gr_mono (S (S d)) (S (S (S d))) ltac:(lia)) as Gm. destruct Gs as [Gs1 Gs2]. pose proof (gr_pos (S (S d))) as Gp.
  assert (qp : 0 <= q). { apply fl_pos. apply div_pos'; [|rewrite Fn; exact Ln]. clear. induction t as [x|a IHa b IHb]; cbn [each64 add64]; [apply fl_pos; nra|apply fl_pos; lra]. }
  pose proof (sqrt_err (gr (S (S d))) (5 * T) q M ltac:(lra) ltac:(lra) qp Mp Q1) as Sq. pose proof (sqrt_pos M) as Rp. pose proof (sqrt_pos q) as Rq. pose proof (sqrt_pos (5 * T)) as sgp.
  assert (Sg : sqrt (5 * T) <= / 2 ^ 450).
  { rewrite <- (sqrt_square (/ 2 ^ 450)) by (left; apply Rinv_0_lt_compat, pow_lt; lra). apply sqrt_le_1_alt. rewrite <- Rinv_mult, <- pow_add. unfold T, tiny. change (450 + 450)%nat with 900%nat.
    assert (0 < / 2 ^ 900) by (apply Rinv_0_lt_compat, pow_lt; lra). lra. }
  assert (Ts : T <= / 2 ^ 450).
  { apply Rle_trans with (/ 2 ^ 900); [unfold T, tiny; assert (0 < / 2 ^ 900) by (apply Rinv_0_lt_compat, pow_lt; lra); lra|]. apply Rinv_le_contravar; [apply pow_lt; lra|]. apply Rle_pow; [lra|lia]. }
  assert (W : 8 * / 2 ^ 450 <= / 2 ^ 400).
  { replace (2 ^ 450) with (2 ^ 400 * 2 ^ 50) by (rewrite <- pow_add; reflexivity). rewrite Rinv_mult. assert (0 < / 2 ^ 400) by (apply Rinv_0_lt_compat, pow_lt; lra). assert (8 * / 2 ^ 50 <= 1) by lra. nra. }
  assert (U1 : u <= / 2) by (unfold unit_roundoff; lra).
  unfold rms64. fold n q. pose proof (fl_u (sqrt q)) as F. rewrite (Rabs_pos_eq (sqrt q)) in F by exact Rq. set (x := sqrt q) in *. set (r := sqrt M) in *. set (sg := sqrt (5 * T)) in *. set (y := fl x) in *.
  pose proof (gr_S (S (S d))) as GS. set (g := gr (S (S d))) in *. set (g1 := gr (S (S (S d)))) in *. clearbody x r y g g1 sg. clear Q1 E Es.
  apply Rabs_le_iff in Sq. apply Rabs_le_iff in F.
  assert (B : Rabs (y - r) <= g1 * r + 7 * / 2 ^ 450).
  { apply Rabs_le. set (h := / 2 ^ 450) in *. split; nra. }
  eapply Rle_trans; [exact B|]. assert (0 < / 2 ^ 450) by (apply Rinv_0_lt_compat, pow_lt; lra). assert (0 <= / 2 ^ 52 * r) by (apply Rmult_le_pos; [left; apply Rinv_0_lt_compat, pow_lt; lra|exact Rp]). nra.
Qed.

Lemma exp_lip x y : x <= 0 -> y <= 0 -> Rabs (exp x - exp y) <= Rabs (x - y).
Proof.
  assert (K : forall a b, a <= b -> b <= 0 -> 0 <= exp b - exp a <= b - a).
  { intros a b H Hb. split; [destruct H as [H| ->]; [pose proof (exp_increasing a b H); lra|lra]|].
    assert (exp b <= 1) by (rewrite <- exp_0; destruct Hb as [Hb| ->]; [left; apply exp_increasing, Hb|lra]).
    replace (exp a) with (exp b * exp (a - b)) by (rewrite <- exp_plus; f_equal; ring). pose proof (exp_ineq1_le (a - b)). pose proof (exp_pos b). nra. }
  intros Hx Hy. destruct (Rle_or_lt x y) as [H|H].
  - destruct (K x y H Hy). rewrite (Rabs_left1 (exp x - exp y)), (Rabs_left1 (x - y)) by lra. lra.
  - destruct (K y x ltac:(lra) Hx). rewrite !Rabs_pos_eq by lra. lra.
Qed.

Lemma e_rs_err e sq ex m t : 0 <= e <= 1 -> (forall x, 0 <= sq x /\ Rabs (sq x - x ^ 2) <= e * (x ^ 2 + 1)) -> (forall x, x <= 0 -> Rabs (ex x - exp x) <= e) ->
  concat m <> [] -> INR (length (concat m)) <= 2 ^ 50 -> INR (depth t) <= 2 ^ 50 -> adds t (concat m) ->
  exists r v, rms_plain (map (map Fin) m) = Fin r /\ e_rs_plain (map (map Fin) m) = Fin v /\
    Rabs (e_rs64 sq ex t (length (concat m)) - v) <= e + 3 * (e + (INR (depth t) + 4) * / 2 ^ 52) * (r + 1) ^ 2.
Proof.
  intros He Hs Hx Hm Hn Hd Ht. destruct (rms_err m t Hm Hn Hd Ht) as (r & R1 & R2 & R3). exists r, (exp (- r ^ 2)). split; [exact R1|]. split; [unfold e_rs_plain; rewrite R1; reflexivity|].
  unfold e_rs64. set (r64 := rms64 t (length (concat m))) in *. destruct (Hs r64) as [S1 S2]. pose proof (Hx (- sq r64) ltac:(lra)) as X. assert (0 <= r ^ 2) by nra.
  pose proof (exp_lip (- sq r64) (- r ^ 2) ltac:(lra) ltac:(lra)) as L. set (A := (INR (depth t) + 4) * / 2 ^ 52) in *.
  assert (H2 : 0 < / 2 ^ 52) by (apply Rinv_0_lt_compat, pow_lt; lra). pose proof (pos_INR (depth t)) as D0.
  assert (A1 : / 2 ^ 400 <= A). { apply Rle_trans with (1 * / 2 ^ 52); [rewrite Rmult_1_l; apply Rinv_le_contravar; [apply pow_lt; lra|apply Rle_pow; [lra|lia]]|]. apply Rmult_le_compat_r; lra. }
  assert (A2 : A <= 26 / 100). { apply Rle_trans with ((2 ^ 50 + 4) * / 2 ^ 52); [apply Rmult_le_compat_r; lra|lra]. }
  assert (A0 : 0 <= A) by (apply Rmult_le_pos; lra). clearbody A r64.
  assert (R4 : Rabs (r64 - r) <= A * (r + 1)) by lra. apply Rabs_le_iff in R4. set (p := r + 1) in *. assert (P1 : 1 <= p) by (unfold p; lra). assert (Er : r = p - 1) by (unfold p; ring).
  assert (B1 : -(5 / 4 * p) <= r64 <= 126 / 100 * p) by (split; nra). assert (B2 : r64 ^ 2 + 1 <= 3 * p ^ 2) by nra.
  assert (B3 : Rabs (r64 ^ 2 - r ^ 2) <= 3 * A * p ^ 2).
  { replace (r64 ^ 2 - r ^ 2) with ((r64 - r) * (r64 + r)) by ring. rewrite Rabs_mult. apply Rle_trans with (A * p * (3 * p)); [|right; ring].
    apply Rmult_le_compat; [apply Rabs_pos|apply Rabs_pos|apply Rabs_le; lra|apply Rabs_le; split; nra]. }
  replace (ex (- sq r64) - exp (- r ^ 2)) with ((ex (- sq r64) - exp (- sq r64)) + (exp (- sq r64) - exp (- r ^ 2))) by ring. eapply Rle_trans; [apply Rabs_triang|].
  replace (- sq r64 - - r ^ 2) with (- ((sq r64 - r64 ^ 2) + (r64 ^ 2 - r ^ 2))) in L by ring. rewrite Rabs_Ropp in L. pose proof (Rabs_triang (sq r64 - r64 ^ 2) (r64 ^ 2 - r ^ 2)) as Tr.
  assert (e * (r64 ^ 2 + 1) <= e * (3 * p ^ 2)) by (apply Rmult_le_compat_l; lra). nra.
Qed.

(** Any list can be added, for instance from left to right. *)
Lemma adds_some l : l <> [] -> exists t, adds t l /\ (S (depth t) <= length l)%nat.
Proof.
  induction l as [|x l IH]; [congruence|]. intros _. destruct l as [|y l].
  - exists (One x). split; [exists O; split; [cbn; lia|apply Permutation_refl]|cbn; lia].
  - destruct IH as (t & (k & K & P) & D); [discriminate|]. exists (Plus (One x) t). split.
    + exists k. split; [cbn [length] in *; lia|]. cbn [summands app] in *. apply perm_skip, P.
    + cbn [depth length] in *. lia.
Qed.
