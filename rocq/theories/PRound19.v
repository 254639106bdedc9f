(** A best fit in binary64 is nearly a best fit. *)
From Coq Require Import Reals ZArith List Permutation Lia Lra.
From Verif Require Import PyBase PyLib Num MMath MAperture MTel MRad MCore SCore SFloat MFloat MFloat2 MFloat3 MFloat4 MFloat5 SRad SGain SRound SRound2 SRound3 SRound4 SBest SRound5 PRound PSim PResid PRound4 PRound14 PRound17.
Import ListNotations.
Open Scope R_scope.
Open Scope list_scope.

Lemma sumsq_cons x r : sum_sq (x :: r) = x ^ 2 + sum_sq r.
Proof. unfold sum_sq. cbn [fold_right]. ring. Qed.
Lemma sumsq_pos r : 0 <= sum_sq r.
Proof. induction r as [|x r IH]; [unfold sum_sq; cbn; lra|]. rewrite sumsq_cons. assert (0 <= x ^ 2) by nra. lra. Qed.
Lemma sumsq_total r : sum_sq r = total (map (fun x => x ^ 2) r).
Proof. unfold total. induction r as [|x r IH]; [reflexivity|]. rewrite sumsq_cons, IH. reflexivity. Qed.
Lemma sumsq_in r x : In x r -> x ^ 2 <= sum_sq r.
Proof. induction r as [|y r IH]; [contradiction|]. rewrite sumsq_cons. intros [->|H]; [pose proof (sumsq_pos r); lra|]. specialize (IH H). assert (0 <= y ^ 2) by nra. lra. Qed.

Lemma sumsq_near E r r64 : 0 <= E <= 1 -> (forall x, In x r -> -1 <= x <= 1) -> Forall2 (fun x x64 => Rabs (x64 - x) <= E) r r64 ->
  Rabs (sum_sq r64 - sum_sq r) <= INR (length r) * (3 * E) /\ sum_sq r64 <= 4 * INR (length r).
Proof.
  intros HE. revert r64. induction r as [|x r IH]; intros r64 H F; inversion F as [|? y ? t Hy Ht]; subst; [change (length []) with 0%nat; change (sum_sq []) with 0; cbn [INR]; rewrite Rminus_0_r, Rabs_R0; lra|]. rewrite !sumsq_cons.
  destruct (IH t (fun z Hz => H z (or_intror Hz)) Ht) as [I1 I2]. specialize (H x (or_introl eq_refl)). cbn [length]. rewrite S_INR. apply Rabs_le_iff in Hy. apply Rabs_le_iff in I1.
  set (d := y - x) in *. replace y with (x + d) by (unfold d; ring). assert (A : - E <= d * x <= E) by nra. assert (B : 0 <= d ^ 2 <= E) by nra.
  replace ((x + d) ^ 2) with (x ^ 2 + 2 * (d * x) + d ^ 2) by ring. split; [apply Rabs_le; split; lra|]. assert (x ^ 2 <= 1) by nra. lra.
Qed.

(** Adding the squares in any order. *)
Lemma tree_cost (shape : list R -> adding) M d : (0 < M)%nat -> INR M <= 2 ^ 50 -> INR d <= 2 ^ 50 ->
  (forall r, length r = M -> adds (shape r) r /\ (depth (shape r) <= d)%nat) -> accurate_cost ((INR d + 1) * / 2 ^ 52) M (fun r => add64 (each64 square64 (shape r))).
Proof.
  intros Mp Hn Hd H r Lr. destruct (H r Lr) as [(k & Hk & P) D]. set (t := shape r) in *.
  assert (Es : total (map (fun x => x ^ 2) (summands t)) = sum_sq r).
  { rewrite sumsq_total, (total_perm _ _ (Permutation_map (fun x => x ^ 2) P)), map_app, total_app. replace (map (fun x => x ^ 2) (repeat 0 k)) with (repeat 0 k) by (clear; induction k as [|k IH]; [reflexivity|cbn [repeat map]; rewrite <- IH; f_equal; ring]). rewrite total_zero. lra. }
  destruct (tree_err square64 (fun x => x ^ 2) square_err t) as [Sp E]. rewrite Es in *.
  assert (Ls : length (summands t) = (length r + k)%nat) by (rewrite (Permutation_length P), app_length, repeat_length; reflexivity).
  pose proof (nodes_summands t) as Nt. rewrite Ls in Nt. assert (N4 : (nodes t <= 4 * M)%nat) by lia.
  assert (Nn : INR (nodes t) <= 4 * INR M) by (replace 4 with (INR 4) by (cbn; lra); rewrite <- mult_INR; apply le_INR, N4).
  pose proof roundoff_pos as U. pose proof T_pos as Tp. pose proof (gr_mono (S (depth t)) (S d) ltac:(lia)) as Gm. pose proof (gr_pos (S (depth t))) as Gp.
  assert (G : gr (S d) <= 2 * INR (S d) * u) by (apply gr_bound; rewrite S_INR; apply Rle_trans with ((2 ^ 50 + 1) * u); [apply Rmult_le_compat_r; lra|unfold unit_roundoff; lra]).
  rewrite S_INR in G. replace (2 * (INR d + 1) * u) with ((INR d + 1) * / 2 ^ 52) in G by (unfold unit_roundoff; lra).
  assert (Ts : INR (nodes t) * T <= 1).
  { apply Rle_trans with (4 * 2 ^ 50 * T); [apply Rmult_le_compat_r; lra|]. unfold T, tiny. apply Rle_trans with (4 * 2 ^ 50 * / 2 ^ 60); [|lra]. apply Rmult_le_compat_l; [lra|].
    match goal with |- ?z / 100 <= _ => assert (z <= / 2 ^ 60) end; [|assert (0 < / 2 ^ 60) by (apply Rinv_0_lt_compat, pow_lt; lra); lra].
    apply Rinv_le_contravar; [apply pow_lt; lra|]. apply Rle_pow; [lra|lia]. }
  eapply Rle_trans; [exact E|]. assert (0 <= INR (nodes t) * T) by (apply Rmult_le_pos; [apply pos_INR|lra]).
  apply Rmult_le_compat; [exact Gp|lra|lra|lra].
Qed.

Section Best.
Variables (e ef : R) (m : maths) (pr sr a L Fp F bf wavel : R) (N : nat) (beam : list (list num)) (u_data v_data : list (list R)) (d_z : list R) (M : nat) (E k : R) (cost : list R -> R).
Hypothesis (H1 : unit_roundoff <= e) (H2 : accurate_maths e m) (H3 : accurate_fft ef (m_fft m)) (H4 : 0 <= ef <= / 1000) (H5 : INR N <= 2 ^ 20).
Hypothesis (H6 : exists i j, (i < N)%nat /\ (j < N)%nat /\ block_manual pr sr a L (sample (pr * bf) N i) (sample (pr * bf) N j) <> 0).
Hypothesis (H8 : (0 < M)%nat) (H9 : map (@length num) beam = [M; M; M]) (H10 : map (@length R) u_data = [M; M; M]) (H11 : map (@length R) v_data = [M; M; M]) (H12 : length d_z = 3%nat).
Hypothesis (H13 : forall x, In x (concat u_data ++ concat v_data) -> well_inside (grid_step pr wavel N bf) N x) (H14 : forall b, In b beam -> resolved b).
Hypothesis (HE : 0 <= E <= 1) (Hk : 0 <= k) (Hc : accurate_cost k (3 * M) cost).
Let ex p := residual_true illum_parabolic (manual pr sr a L Fp F) p beam u_data v_data d_z wavel N bf.
Let fx p := residual_true64 m (illum_parabolic64 m) (manual64 pr sr a L Fp F) p beam u_data v_data d_z wavel N bf.
Let pred := predictable e ef pr sr a L Fp F bf wavel N u_data v_data d_z E.

Lemma cost_near p : pred p -> exists r r64, ex p = Ok r /\ fx p = Ok r64 /\ length r = (3 * M)%nat /\ Rabs (cost r64 - sum_sq r) <= INR M * (9 * E + 13 * k).
Proof.
  intros (n & i_amp & c_dB & q & x0 & y0 & K & l & D & -> & Hz & Dp & Hd & He).
  destruct (residual_api e ef m n K pr sr a L Fp F bf wavel i_amp c_dB q x0 y0 N beam u_data v_data d_z M H1 H2 H3 H4 H5 H6 (fun z Iz => proj1 (Hz z Iz)) H8 H9 H10 H11 H12 l D (fun z Iz => proj2 (Hz z Iz)) H13 H14 Dp Hd) as (r & r64 & R1 & R2 & R3).
  exists r, r64. destruct (residual_shape _ _ _ _ _ _ _ _ _ _ _ R1) as [Lr Br].
  assert (Lc : length r = (3 * M)%nat). { rewrite Lr. destruct beam as [|b1 [|b2 [|b3 [|b4 bs]]]]; try discriminate H9. injection H9 as B1 B2 B3. cbn [concat]. rewrite !app_length. cbn [length]. lia. }
  split; [exact R1|]. split; [exact R2|]. split; [exact Lc|].
  assert (R4 : Forall2 (fun x x64 => Rabs (x64 - x) <= E) r r64). { clear - R3 He. induction R3 as [|x y r t H _ IH]; constructor; [lra|exact IH]. }
  destruct (sumsq_near E r r64 HE Br R4) as [Q1 Q2]. rewrite Lc in Q1, Q2.
  assert (L64 : length r64 = (3 * M)%nat) by (rewrite <- Lc; symmetry; clear - R4; induction R4; cbn; congruence).
  pose proof (Hc r64 L64) as Q3. rewrite mult_INR in Q1, Q2. replace (INR 3) with 3 in Q1, Q2 by (cbn; lra).
  assert (M1 : 1 <= INR M) by (apply (le_INR 1), H8). pose proof (sumsq_pos r64).
  assert (Q4 : k * (sum_sq r64 + 1) <= k * (13 * INR M)) by (apply Rmult_le_compat_l; lra).
  replace (cost r64 - sum_sq r) with ((cost r64 - sum_sq r64) + (sum_sq r64 - sum_sq r)) by ring. eapply Rle_trans; [apply Rabs_triang|].
  replace (INR M * (9 * E + 13 * k)) with (k * (13 * INR M) + 3 * INR M * (3 * E)) by ring. lra.
Qed.

(** Binary64 ranks two vectors as they should be if their sum_sqs differ by more than the error. *)
Lemma cost_order p p' r r' : pred p -> pred p' -> ex p = Ok r -> ex p' = Ok r' -> sum_sq r + 2 * INR M * (9 * E + 13 * k) < sum_sq r' ->
  exists r64 r64', fx p = Ok r64 /\ fx p' = Ok r64' /\ cost r64 < cost r64'.
Proof.
  intros P P' X X' H. destruct (cost_near p P) as (s & s64 & A1 & A2 & _ & A3), (cost_near p' P') as (t & t64 & B1 & B2 & _ & B3).
  rewrite X in A1. injection A1 as <-. rewrite X' in B1. injection B1 as <-. exists s64, t64. split; [exact A2|]. split; [exact B2|].
  apply Rabs_le_iff in A3. apply Rabs_le_iff in B3. lra.
Qed.

(** The best of any set of vectors, as binary64 sees it, is nearly the best. *)
Lemma cost_best (cand : list R -> Prop) tol p : (forall q, cand q -> pred q) -> cand p ->
  (forall q r64 s64, cand q -> fx p = Ok r64 -> fx q = Ok s64 -> cost r64 <= cost s64 + tol) ->
  exists r, ex p = Ok r /\ forall q, cand q -> exists s, ex q = Ok s /\ sum_sq r <= sum_sq s + (2 * INR M * (9 * E + 13 * k) + tol).
Proof.
  intros Hp Cp B. destruct (cost_near p (Hp p Cp)) as (r & r64 & A1 & A2 & _ & A3). exists r. split; [exact A1|]. intros q Cq.
  destruct (cost_near q (Hp q Cq)) as (t & t64 & B1 & B2 & _ & B3). exists t. split; [exact B1|]. specialize (B q r64 t64 Cq A2 B2).
  apply Rabs_le_iff in A3. apply Rabs_le_iff in B3. lra.
Qed.

(** Data that some vector explains exactly are explained nearly by that best. *)
Lemma cost_explains (cand : list R -> Prop) tol p q s : (forall q, cand q -> pred q) -> cand p ->
  (forall q r64 s64, cand q -> fx p = Ok r64 -> fx q = Ok s64 -> cost r64 <= cost s64 + tol) -> cand q -> ex q = Ok s -> (forall x, In x s -> x = 0) ->
  exists r, ex p = Ok r /\ forall x, In x r -> Rabs x <= sqrt (2 * INR M * (9 * E + 13 * k) + tol).
Proof.
  intros Hp Cp B Cq X Z. destruct (cost_best cand tol p Hp Cp B) as (r & A1 & A2). exists r. split; [exact A1|]. intros x Hx. destruct (A2 q Cq) as (s' & X' & A3). rewrite X in X'. apply Ok_inj in X'. subst s'.
  assert (sum_sq s = 0) as M0. { clear - Z. induction s as [|x s IH]; [reflexivity|]. rewrite sumsq_cons, IH by (intros; apply Z; right; assumption). rewrite (Z x (or_introl eq_refl)). ring. }
  rewrite M0 in A3. pose proof (sumsq_in r x Hx). rewrite <- (sqrt_pow2 (Rabs x) (Rabs_pos x)), pow2_abs. apply sqrt_le_1_alt. lra.
Qed.
End Best.
