(** C118: a best fit in binary64 is nearly a best fit. *)
From Coq Require Import Reals ZArith List Lia Lra.
From Verif Require Import PyBase PyLib Num MMath MAperture MTel MRad MCore MFs MOut SOut SFit SBest MSim MAux SRecover SCore SFloat MFloat MFloat2 MFloat3 MFloat4 MFloat5 MFloat6 SRad SGain SRound SRound2 SRound3 SRound4 SRound5 PEnd PRound13 PRound14 PRound18 PRound19 PRound20 PRound21.
Import ListNotations.
Open Scope R_scope.
Open Scope list_scope.

(** C118. Squares added in whatever order, with d additions at most for each: an error of (d + 1) 2^-52. *)
Theorem C118_sum (shape : list R -> adding) M d : (0 < M)%nat -> INR M <= 2 ^ 50 -> INR d <= 2 ^ 50 ->
  (forall r, length r = M -> adds (shape r) r /\ (depth (shape r) <= d)%nat) -> accurate_cost ((INR d + 1) * / 2 ^ 52) M (fun r => add64 (each64 square64 (shape r))).
Proof. exact (tree_cost shape M d). Qed.
Print Assumptions C118_sum.

(** The cost of a vector of parameters in binary64 (the model of the beams, the normalisation, the residual and the sum of its squares) is near the exact one. *)
Theorem C118_cost e ef m pr sr a L Fp F bf wavel N beam u_data v_data d_z M E k cost p :
  unit_roundoff <= e -> accurate_maths e m -> accurate_fft ef (m_fft m) -> 0 <= ef <= / 1000 -> INR N <= 2 ^ 20 ->
  (exists i j, (i < N)%nat /\ (j < N)%nat /\ block_manual pr sr a L (sample (pr * bf) N i) (sample (pr * bf) N j) <> 0) ->
  (0 < M)%nat -> map (@length num) beam = [M; M; M] -> map (@length R) u_data = [M; M; M] -> map (@length R) v_data = [M; M; M] -> length d_z = 3%nat ->
  (forall x, In x (concat u_data ++ concat v_data) -> well_inside (grid_step pr wavel N bf) N x) -> (forall b, In b beam -> resolved b) ->
  0 <= E <= 1 -> 0 <= k -> accurate_cost k (3 * M) cost -> predictable e ef pr sr a L Fp F bf wavel N u_data v_data d_z E p ->
  exists r r64, residual_true illum_parabolic (manual pr sr a L Fp F) p beam u_data v_data d_z wavel N bf = Ok r /\
    residual_true64 m (illum_parabolic64 m) (manual64 pr sr a L Fp F) p beam u_data v_data d_z wavel N bf = Ok r64 /\
    length r = (3 * M)%nat /\ Rabs (cost r64 - sum_sq r) <= INR M * (9 * E + 13 * k).
Proof. exact (fun H1 H2 H3 H4 H5 H6 H8 H9 H10 H11 H12 H13 H14 HE Hk Hc => cost_near e ef m pr sr a L Fp F bf wavel N beam u_data v_data d_z M E k cost H1 H2 H3 H4 H5 H6 H8 H9 H10 H11 H12 H13 H14 HE Hk Hc p). Qed.
Print Assumptions C118_cost.

(** Binary64 prefers a vector to another whenever it is better by more than twice that error. *)
Theorem C118_order e ef m pr sr a L Fp F bf wavel N beam u_data v_data d_z M E k cost p p' r r' :
  unit_roundoff <= e -> accurate_maths e m -> accurate_fft ef (m_fft m) -> 0 <= ef <= / 1000 -> INR N <= 2 ^ 20 ->
  (exists i j, (i < N)%nat /\ (j < N)%nat /\ block_manual pr sr a L (sample (pr * bf) N i) (sample (pr * bf) N j) <> 0) ->
  (0 < M)%nat -> map (@length num) beam = [M; M; M] -> map (@length R) u_data = [M; M; M] -> map (@length R) v_data = [M; M; M] -> length d_z = 3%nat ->
  (forall x, In x (concat u_data ++ concat v_data) -> well_inside (grid_step pr wavel N bf) N x) -> (forall b, In b beam -> resolved b) ->
  0 <= E <= 1 -> 0 <= k -> accurate_cost k (3 * M) cost ->
  predictable e ef pr sr a L Fp F bf wavel N u_data v_data d_z E p -> predictable e ef pr sr a L Fp F bf wavel N u_data v_data d_z E p' ->
  residual_true illum_parabolic (manual pr sr a L Fp F) p beam u_data v_data d_z wavel N bf = Ok r ->
  residual_true illum_parabolic (manual pr sr a L Fp F) p' beam u_data v_data d_z wavel N bf = Ok r' ->
  sum_sq r + 2 * INR M * (9 * E + 13 * k) < sum_sq r' ->
  exists r64 r64', residual_true64 m (illum_parabolic64 m) (manual64 pr sr a L Fp F) p beam u_data v_data d_z wavel N bf = Ok r64 /\
    residual_true64 m (illum_parabolic64 m) (manual64 pr sr a L Fp F) p' beam u_data v_data d_z wavel N bf = Ok r64' /\ cost r64 < cost r64'.
Proof. exact (fun H1 H2 H3 H4 H5 H6 H8 H9 H10 H11 H12 H13 H14 HE Hk Hc => cost_order e ef m pr sr a L Fp F bf wavel N beam u_data v_data d_z M E k cost H1 H2 H3 H4 H5 H6 H8 H9 H10 H11 H12 H13 H14 HE Hk Hc p p' r r'). Qed.
Print Assumptions C118_order.

(** The vector of any set that binary64 finds best, up to a tolerance, is the best of the set up to that tolerance and twice the error; if some vector of
    the set explains the maps exactly, every entry of its residual is small. *)
Theorem C118_best e ef m pr sr a L Fp F bf wavel N beam u_data v_data d_z M E k cost (candidates : list R -> Prop) tol p :
  unit_roundoff <= e -> accurate_maths e m -> accurate_fft ef (m_fft m) -> 0 <= ef <= / 1000 -> INR N <= 2 ^ 20 ->
  (exists i j, (i < N)%nat /\ (j < N)%nat /\ block_manual pr sr a L (sample (pr * bf) N i) (sample (pr * bf) N j) <> 0) ->
  (0 < M)%nat -> map (@length num) beam = [M; M; M] -> map (@length R) u_data = [M; M; M] -> map (@length R) v_data = [M; M; M] -> length d_z = 3%nat ->
  (forall x, In x (concat u_data ++ concat v_data) -> well_inside (grid_step pr wavel N bf) N x) -> (forall b, In b beam -> resolved b) ->
  0 <= E <= 1 -> 0 <= k -> accurate_cost k (3 * M) cost ->
  (forall q, candidates q -> predictable e ef pr sr a L Fp F bf wavel N u_data v_data d_z E q) -> candidates p ->
  (forall q r64 s64, candidates q -> residual_true64 m (illum_parabolic64 m) (manual64 pr sr a L Fp F) p beam u_data v_data d_z wavel N bf = Ok r64 ->
     residual_true64 m (illum_parabolic64 m) (manual64 pr sr a L Fp F) q beam u_data v_data d_z wavel N bf = Ok s64 -> cost r64 <= cost s64 + tol) ->
  exists r, residual_true illum_parabolic (manual pr sr a L Fp F) p beam u_data v_data d_z wavel N bf = Ok r /\
    (forall q, candidates q -> exists s, residual_true illum_parabolic (manual pr sr a L Fp F) q beam u_data v_data d_z wavel N bf = Ok s /\
       sum_sq r <= sum_sq s + (2 * INR M * (9 * E + 13 * k) + tol)) /\
    ((exists q s, candidates q /\ residual_true illum_parabolic (manual pr sr a L Fp F) q beam u_data v_data d_z wavel N bf = Ok s /\ forall x, In x s -> x = 0) ->
     forall x, In x r -> Rabs x <= sqrt (2 * INR M * (9 * E + 13 * k) + tol)).
Proof.
  intros H1 H2 H3 H4 H5 H6 H8 H9 H10 H11 H12 H13 H14 HE Hk Hc Hp Cp B.
  destruct (cost_best e ef m pr sr a L Fp F bf wavel N beam u_data v_data d_z M E k cost H1 H2 H3 H4 H5 H6 H8 H9 H10 H11 H12 H13 H14 HE Hk Hc candidates tol p Hp Cp B) as (r & R1 & R2).
  exists r. split; [exact R1|]. split; [exact R2|]. intros (q & s & Cq & X & Z).
  destruct (cost_explains e ef m pr sr a L Fp F bf wavel N beam u_data v_data d_z M E k cost H1 H2 H3 H4 H5 H6 H8 H9 H10 H11 H12 H13 H14 HE Hk Hc candidates tol p q s Hp Cp B Cq X Z) as (r' & R3 & R4).
  rewrite R1 in R3. apply Ok_inj in R3. subst r'. exact R4.
Qed.
Print Assumptions C118_best.

(** A fit whose optimizer minimises the cost in binary64 has the answers that C96 needs of a fit over the reals. *)
Theorem C118_fit e ef m pr sr b L Fp F a c orc M m0 E k tol cost :
  fa_illum a = illum_parabolic -> fa_tel a = manual pr sr b L Fp F ->
  unit_roundoff <= e -> accurate_maths e m -> accurate_fft ef (m_fft m) -> 0 <= ef <= / 1000 -> INR (fa_resolution a) <= 2 ^ 20 ->
  (exists i j, (i < fa_resolution a)%nat /\ (j < fa_resolution a)%nat /\
     block_manual pr sr b L (sample (pr * fa_box_factor a) (fa_resolution a) i) (sample (pr * fa_box_factor a) (fa_resolution a) j) <> 0) ->
  (0 < M)%nat -> map (@length num) (fa_beam a) = [M; M; M] -> map (@length R) (fa_u a) = [M; M; M] -> map (@length R) (fa_v a) = [M; M; M] -> length (fa_d_z a) = 3%nat ->
  (forall x, In x (concat (fa_u a) ++ concat (fa_v a)) -> well_inside (grid_step pr (fa_wavel a) (fa_resolution a) (fa_box_factor a)) (fa_resolution a) x) ->
  (forall b, In b (fa_beam a) -> resolved b) ->
  0 <= E <= 1 -> 0 <= k -> accurate_cost k (3 * M) cost -> valid_config c -> (1 <= m0)%nat ->
  (forall n p, (m0 <= n <= fa_order_max a)%nat -> allowed c n p -> predictable e ef pr sr b L Fp F (fa_box_factor a) (fa_wavel a) (fa_resolution a) (fa_u a) (fa_v a) (fa_d_z a) E p) ->
  cheapest_from m cost (manual64 pr sr b L Fp F) orc a c m0 tol ->
  best_from orc a c m0 (2 * INR M * (9 * E + 13 * k) + tol).
Proof. exact (cheapest_best e ef m pr sr b L Fp F a c orc M m0 E k tol cost). Qed.
Print Assumptions C118_fit.

(** The tilted telescope on 6 by 6 points, three points per map, tilts between 0 and 1/4: the tilt 5/48 explains the maps, no tilt leaves a sum of squares
    of 3, and the error is below 1/100.  An optimizer that answers 5/48 is within its tolerance. *)
Example C118_nonvacuous : unit_roundoff <= / 2 ^ 52 /\ accurate_maths (/ 2 ^ 52) rounding_maths /\ accurate_fft (/ 2 ^ 40) (m_fft rounding_maths) /\ 0 <= / 2 ^ 40 <= / 1000 /\
  accurate_cost (10 * / 2 ^ 52) (3 * 3) plain_cost /\ 2 * INR 3 * (9 * / 2 ^ 14 + 13 * (10 * / 2 ^ 52)) <= 1 / 100 /\
  let a := ramp_args in fa_illum a = illum_parabolic /\ fa_tel a = manual 50 3 1 20 30 300 /\
  map (@length num) (fa_beam a) = [3; 3; 3]%nat /\ map (@length R) (fa_u a) = [3; 3; 3]%nat /\ map (@length R) (fa_v a) = [3; 3; 3]%nat /\ length (fa_d_z a) = 3%nat /\
  (exists i j, (i < 6)%nat /\ (j < 6)%nat /\ block_manual 50 3 1 20 (sample (50 * fa_box_factor a) 6 i) (sample (50 * fa_box_factor a) 6 j) <> 0) /\
  (forall x, In x (concat (fa_u a) ++ concat (fa_v a)) -> well_inside (grid_step 50 (fa_wavel a) (fa_resolution a) (fa_box_factor a)) (fa_resolution a) x) /\ (forall b, In b (fa_beam a) -> resolved b) /\
  valid_config ramp_config /\ (forall p, allowed ramp_config 1 p <-> exists t, 0 <= t <= 1 / 4 /\ p = [2; -12; 2; 0; 0] ++ [0; 0; t]) /\
  (forall n p, (1 <= n <= fa_order_max a)%nat -> allowed ramp_config n p -> predictable (/ 2 ^ 52) (/ 2 ^ 40) 50 3 1 20 30 300 (fa_box_factor a) (fa_wavel a) (fa_resolution a) (fa_u a) (fa_v a) (fa_d_z a) (/ 2 ^ 14) p) /\
  explained a ([2; -12; 2; 0; 0] ++ [0; 0; 5 / 48]) (repeat 0 9) /\ explained a ([2; -12; 2; 0; 0] ++ [0; 0; 0]) (concat (repeat [0; 1; 0] 3)) /\ sum_sq (concat (repeat [0; 1; 0] 3)) = 3 /\
  cheapest_from rounding_maths plain_cost (manual64 50 3 1 20 30 300) ramp_oracle a ramp_config 1 (1 / 100) /\
  (exists out, answered ramp_oracle a ramp_config 1 [2; -12; 2; 0; 0; 0; 0; 1 / 10] out /\ lo_x out = [5 / 48]).
Proof.
  assert (P : 0 <= / 2 ^ 40 <= / 1000). { split; [left; apply Rinv_0_lt_compat, pow_lt; lra|]. apply Rinv_le_contravar; [lra|]. apply Rle_trans with (2 ^ 10); [lra|apply Rle_pow; [lra|lia]]. }
  assert (HF : accurate_fft (/ 2 ^ 40) (m_fft rounding_maths)) by (apply fft2_exact, P).
  assert (HP : forall n p, (1 <= n <= 1)%nat -> allowed ramp_config n p -> predictable (/ 2 ^ 52) (/ 2 ^ 40) 50 3 1 20 30 300 2 (9 / 1000) 6 ramp_x ramp_y bowl_z (/ 2 ^ 14) p).
  { intros n p Hn A. assert (n = 1%nat) as -> by lia. apply ramp_allowed in A. destruct A as (t & Ht & ->). exact (ramp_predictable t Ht). }
  assert (HB : 2 * INR 3 * (9 * / 2 ^ 14 + 13 * (10 * / 2 ^ 52)) <= 1 / 100) by (cbn [INR]; lra).
  assert (HO : exists i j, (i < 6)%nat /\ (j < 6)%nat /\ block_manual 50 3 1 20 (sample (50 * 2) 6 i) (sample (50 * 2) 6 j) <> 0) by (exists 2%nat, 3%nat; split; [lia|]; split; [lia|]; exact bowl_open).
  split; [exact u_52|]. split; [exact rounding_accurate|]. split; [exact HF|]. split; [exact P|]. split; [exact plain_accurate|]. split; [exact HB|]. intros a. do 6 (split; [reflexivity|]).
  split; [exact HO|]. split; [exact ramp_inside|]. split; [exact ramp_resolved|]. split; [exact ramp_valid|]. split; [exact ramp_allowed|]. split; [exact HP|]. split; [exact ramp_exact|]. split; [exact ramp_flat|].
  split; [cbn; lra|]. assert (MX : misfit a ramp_config 1 [5 / 48] = Ok (repeat 0 9)) by exact ramp_exact.
  split.
  - intros n start out Hn Ls A. cbn [fa_order_max a ramp_args] in Hn. assert (n = 1%nat) as -> by lia. apply PCov2.careful_answer in A. destruct A as (r & R & ->). cbn [lo_x lo_fun]. rewrite MX in R. apply Ok_inj in R. subst r.
    split. { exists [0], [1 / 4]. split; [reflexivity|]. split; [reflexivity|]. split; [reflexivity|]. split; [reflexivity|]. cbn [length]. intros [|i] Hi; [cbn; lra|lia]. }
    split; [exact MX|]. intros x r64 s64 _ R _. pose proof (plain_pos s64) as Ps.
    assert (PE : 0 <= / 2 ^ 14 <= 1) by lra. assert (PK : 0 <= 10 * / 2 ^ 52) by lra. assert (H20 : INR 6 <= 2 ^ 20) by (cbn [INR]; lra).
    destruct (cost_near (/ 2 ^ 52) (/ 2 ^ 40) rounding_maths 50 3 1 20 30 300 2 (9 / 1000) 6 ramp_beam ramp_x ramp_y bowl_z 3 (/ 2 ^ 14) (10 * / 2 ^ 52) plain_cost u_52 rounding_accurate HF P H20 HO ltac:(lia) eq_refl eq_refl eq_refl eq_refl ramp_inside ramp_resolved PE PK plain_accurate
      (bowl_I ++ ramp_K (5 / 48)) (ramp_predictable (5 / 48) ltac:(lra))) as (r & q & Q1 & Q2 & _ & Q3).
    assert (R' : residual_true64 rounding_maths (illum_parabolic64 rounding_maths) (manual64 50 3 1 20 30 300) (bowl_I ++ ramp_K (5 / 48)) ramp_beam ramp_x ramp_y bowl_z (9 / 1000) 6 2 = Ok r64) by exact R.
    rewrite R' in Q2. apply Ok_inj in Q2. subst q. pose proof ramp_exact as X. unfold bowl in X. rewrite X in Q1. apply Ok_inj in Q1. subst r. replace (sum_sq (repeat 0 9)) with 0 in Q3 by (cbn; lra). rewrite Rminus_0_r in Q3.
    pose proof (Rle_abs (plain_cost r64)). lra.
  - eexists. split; [do 3 eexists; do 3 (split; [reflexivity|]); cbn [or_lsq ramp_oracle PCov2.careful length Nat.eqb]; rewrite MX; reflexivity|reflexivity].
Qed.
