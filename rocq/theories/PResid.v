(** C34, C32 (residual part), C60: residual_true. *)
From Verif Require Import PyBase PyLib Sums Num MMath SMath MAperture PWave PPhase PNorm MRad PAper PFft PIllum PRad MCore SCore.
From Coquelicot Require Import Coquelicot.
Open Scope R_scope.

(** * The bilinear interpolator *)
Lemma count_lt grid x i : (forall a b, (a < b < length grid)%nat -> nth a grid 0 < nth b grid 0) -> (i <= length grid)%nat ->
  (forall a, (a < i)%nat -> nth a grid 0 < x) -> (forall a, (i <= a < length grid)%nat -> x <= nth a grid 0) ->
  length (filter (fun g => Rltb g x) grid) = i.
Proof.
  revert i. induction grid as [|g grid IH]; intros i Hs Hi H1 H2; cbn [length filter] in *; [lia|].
  assert (Hs' : forall a b, (a < b < length grid)%nat -> nth a grid 0 < nth b grid 0).
  { intros a b Hab. apply (Hs (S a) (S b)). lia. }
  destruct i as [|i].
  - pose proof (H2 O ltac:(lia)) as H. cbn [nth] in H. rewrite (proj2 (Rltb_false g x)) by lra. apply (IH O Hs'); [lia|intros; lia|].
    intros a Ha. apply (H2 (S a)). lia.
  - pose proof (H1 O ltac:(lia)) as H. cbn [nth] in H. rewrite (proj2 (Rltb_true g x)) by lra. cbn [length]. f_equal. apply (IH i Hs'); [lia| |].
    + intros a Ha. apply (H1 (S a)). lia.
    + intros a Ha. apply (H2 (S a)). lia.
Qed.

Lemma incr_le grid a b : increasing grid -> (a <= b < length grid)%nat -> nth a grid 0 <= nth b grid 0.
Proof. intros H Hab. destruct (Nat.eq_dec a b) as [->|N]; [lra|]. left. apply H. lia. Qed.

Lemma find_node grid i : increasing grid -> (i < length grid)%nat -> (2 <= length grid)%nat ->
  find_index grid (nth i grid 0) = (i - 1)%nat.
Proof.
  intros H Hi HN. unfold find_index. rewrite (count_lt grid (nth i grid 0) i).
  - lia.
  - exact H.
  - lia.
  - intros a Ha. apply H. lia.
  - intros a Ha. apply incr_le; [exact H|lia].
Qed.

(** The cell found contains the point. *)
Lemma find_cell grid x : increasing grid -> (2 <= length grid)%nat -> in_bounds grid x = true ->
  let i := find_index grid x in (i + 1 < length grid)%nat /\ nth i grid 0 <= x <= nth (i + 1) grid 0.
Proof.
  intros H HN Hb i. unfold in_bounds in Hb. apply andb_true_iff in Hb as [B1 B2]. unfold Rleb in B1, B2.
  destruct (Rle_dec (nth 0 grid 0) x) as [L1|]; [|discriminate]. destruct (Rle_dec x (nth (length grid - 1) grid 0)) as [L2|]; [|discriminate]. clear B1 B2.
  assert (exists k, (k <= length grid)%nat /\ (forall a, (a < k)%nat -> nth a grid 0 < x) /\ (forall a, (k <= a < length grid)%nat -> x <= nth a grid 0)) as (k & K1 & K2 & K3).
  { clear L1 L2 i HN. induction grid as [|g grid IH].
    - exists O. cbn. repeat split; intros; lia.
    - destruct IH as (k & K1 & K2 & K3). { intros a b Hab. apply (H (S a) (S b)). cbn. lia. }
      destruct (Rlt_le_dec g x) as [L|L].
      + exists (S k). cbn [length]. split; [lia|]. split.
        * intros [|a] Ha; cbn; [exact L|]. apply K2. lia.
        * intros [|a] Ha; [lia|]. cbn. apply K3. lia.
      + exists O. split; [lia|]. split; [intros; lia|]. intros a Ha. eapply Rle_trans; [exact L|].
        exact (incr_le (g :: grid) 0 a H ltac:(lia)). }
  unfold i, find_index. rewrite (count_lt grid x k H K1 K2 K3).
  destruct (Nat.eq_dec k 0) as [->|N0].
  - cbn [Nat.sub Nat.min]. rewrite Nat.min_0_l || idtac. replace (Nat.min 0 (length grid - 2)) with 0%nat by lia. cbn [Nat.add]. split; [lia|]. split; [exact L1|]. apply K3. lia.
  - assert (k < length grid)%nat.
    { destruct (Nat.eq_dec k (length grid)) as [->|]; [|lia]. specialize (K2 (length grid - 1)%nat ltac:(lia)). lra. }
    replace (Nat.min (k - 1) (length grid - 2)) with (k - 1)%nat by lia. split; [lia|]. split; [left; apply K2; lia|].
    replace (k - 1 + 1)%nat with k by lia. apply K3. lia.
Qed.

(** Exact at the nodes. *)
Lemma interp_node u v vals i j : increasing u -> increasing v -> (2 <= length u)%nat -> (2 <= length v)%nat ->
  (i < length u)%nat -> (j < length v)%nat -> interp2 u v vals (nth i u 0) (nth j v 0) = nth i (nth j vals []) 0.
Proof.
  intros Hu Hv Lu Lv Hi Hj. unfold interp2. rewrite !find_node by assumption. cbv zeta.
  assert (T : forall g k, increasing g -> (2 <= length g)%nat -> (k < length g)%nat ->
    (k = 0%nat /\ (nth k g 0 - nth (k - 1) g 0) / (nth (k - 1 + 1) g 0 - nth (k - 1) g 0) = 0) \/
    ((k - 1 + 1)%nat = k /\ (nth k g 0 - nth (k - 1) g 0) / (nth (k - 1 + 1) g 0 - nth (k - 1) g 0) = 1)).
  { intros g k Hg Lg Hk. destruct k as [|k].
    - left. split; [reflexivity|]. cbn [Nat.sub Nat.add]. unfold Rdiv. rewrite Rminus_diag_eq by reflexivity. ring.
    - right. split; [lia|]. replace (S k - 1 + 1)%nat with (S k) by lia. replace (S k - 1)%nat with k by lia. pose proof (Hg k (S k) ltac:(lia)). field. lra. }
  destruct (T u i Hu Lu Hi) as [[-> E1]|[E0 E1]]; destruct (T v j Hv Lv Hj) as [[-> E2]|[E0' E2]]; rewrite E1, E2; try rewrite E0; try rewrite E0'; cbn [Nat.sub Nat.add]; ring.
Qed.

(** A convex combination of the four surrounding samples. *)
Lemma interp_between u v vals x y lo hi : increasing u -> increasing v -> (2 <= length u)%nat -> (2 <= length v)%nat ->
  in_bounds u x = true -> in_bounds v y = true ->
  (forall i j, (i < length u)%nat -> (j < length v)%nat -> lo <= nth i (nth j vals []) 0 <= hi) ->
  lo <= interp2 u v vals x y <= hi.
Proof.
  intros Hu Hv Lu Lv Bx By Hr. unfold interp2. cbv zeta.
  destruct (find_cell u x Hu Lu Bx) as [Ix Cx]. destruct (find_cell v y Hv Lv By) as [Iy Cy].
  set (i := find_index u x) in *. set (j := find_index v y) in *.
  assert (T : forall a b c, a <= c <= b -> a < b -> 0 <= (c - a) / (b - a) <= 1).
  { intros a b c Hc Hab. split; [apply Rmult_le_pos; [lra|left; apply Rinv_0_lt_compat; lra]|]. apply Rmult_le_reg_r with (b - a); [lra|]. unfold Rdiv. rewrite Rmult_assoc, Rinv_l by lra. lra. }
  pose proof (T _ _ _ Cx (Hu i (i + 1)%nat ltac:(lia))) as Tx. pose proof (T _ _ _ Cy (Hv j (j + 1)%nat ltac:(lia))) as Ty.
  set (tx := (x - _) / _) in *. set (ty := (y - _) / _) in *. clearbody tx ty.
  pose proof (Hr i j ltac:(lia) ltac:(lia)) as P1. pose proof (Hr i (j + 1)%nat ltac:(lia) ltac:(lia)) as P2.
  pose proof (Hr (i + 1)%nat j ltac:(lia) ltac:(lia)) as P3. pose proof (Hr (i + 1)%nat (j + 1)%nat ltac:(lia) ltac:(lia)) as P4.
  set (p1 := nth i (nth j vals []) 0) in *. set (p2 := nth i (nth (j + 1) vals []) 0) in *. set (p3 := nth (i + 1) (nth j vals []) 0) in *. set (p4 := nth (i + 1) (nth (j + 1) vals []) 0) in *.
  clearbody p1 p2 p3 p4.
  assert (W1 : 0 <= (1 - tx) * (1 - ty)) by (apply Rmult_le_pos; lra). assert (W2 : 0 <= (1 - tx) * ty) by (apply Rmult_le_pos; lra).
  assert (W3 : 0 <= tx * (1 - ty)) by (apply Rmult_le_pos; lra). assert (W4 : 0 <= tx * ty) by (apply Rmult_le_pos; lra).
  assert (WS : (1 - tx) * (1 - ty) + (1 - tx) * ty + tx * (1 - ty) + tx * ty = 1) by ring.
  set (w1 := (1 - tx) * (1 - ty)) in *. set (w2 := (1 - tx) * ty) in *. set (w3 := tx * (1 - ty)) in *. set (w4 := tx * ty) in *. clearbody w1 w2 w3 w4.
  split.
  - assert (w1 * lo <= w1 * p1) by (apply Rmult_le_compat_l; lra). assert (w2 * lo <= w2 * p2) by (apply Rmult_le_compat_l; lra).
    assert (w3 * lo <= w3 * p3) by (apply Rmult_le_compat_l; lra). assert (w4 * lo <= w4 * p4) by (apply Rmult_le_compat_l; lra).
    replace lo with ((w1 + w2 + w3 + w4) * lo) by (rewrite WS; ring). lra.
  - assert (w1 * p1 <= w1 * hi) by (apply Rmult_le_compat_l; lra). assert (w2 * p2 <= w2 * hi) by (apply Rmult_le_compat_l; lra).
    assert (w3 * p3 <= w3 * hi) by (apply Rmult_le_compat_l; lra). assert (w4 * p4 <= w4 * hi) by (apply Rmult_le_compat_l; lra).
    replace hi with ((w1 + w2 + w3 + w4) * hi) by (rewrite WS; ring). lra.
Qed.

(** Exact on bilinear functions. *)
Lemma interp_bilinear u v vals x y a b c d : increasing u -> increasing v -> (2 <= length u)%nat -> (2 <= length v)%nat ->
  in_bounds u x = true -> in_bounds v y = true ->
  (forall i j, (i < length u)%nat -> (j < length v)%nat -> nth i (nth j vals []) 0 = a + b * nth i u 0 + c * nth j v 0 + d * (nth i u 0 * nth j v 0)) ->
  interp2 u v vals x y = a + b * x + c * y + d * (x * y).
Proof.
  intros Hu Hv Lu Lv Bx By Hr. unfold interp2. cbv zeta.
  destruct (find_cell u x Hu Lu Bx) as [Ix Cx]. destruct (find_cell v y Hv Lv By) as [Iy Cy].
  set (i := find_index u x) in *. set (j := find_index v y) in *.
  rewrite !Hr by lia. pose proof (Hu i (i + 1)%nat ltac:(lia)). pose proof (Hv j (j + 1)%nat ltac:(lia)). field. split; lra.
Qed.

(** Scaling the samples. *)
Lemma nth_map_scale g r i : nth i (map (Rmult g) r) 0 = g * nth i r 0.
Proof. rewrite <- (map_nth (Rmult g)). rewrite Rmult_0_r. reflexivity. Qed.
Lemma interp_scale u v vals g x y : interp2 u v (map2d (Rmult g) vals) x y = g * interp2 u v vals x y.
Proof.
  unfold interp2. cbv zeta. set (i := find_index u x). set (j := find_index v y).
  assert (E : forall a b, nth a (nth b (map2d (Rmult g) vals) []) 0 = g * nth a (nth b vals []) 0).
  { intros a b. unfold map2d. change (@nil R) with (map (Rmult g) []) at 1. rewrite map_nth. apply nth_map_scale. }
  rewrite !E. ring.
Qed.

Lemma map2_map_out {A B C D} (f : C -> D) (h : A -> B -> C) l1 l2 : map2 (fun a b => f (h a b)) l1 l2 = map f (map2 h l1 l2).
Proof. revert l2; induction l1 as [|a l1 IH]; intros [|b l2]; cbn; try reflexivity. rewrite IH. reflexivity. Qed.
Lemma map2_ext {A B C} (f g : A -> B -> C) l1 l2 : (forall a b, f a b = g a b) -> map2 f l1 l2 = map2 g l1 l2.
Proof. intros H. revert l2; induction l1 as [|a l1 IH]; intros [|b l2]; cbn; try reflexivity. rewrite H, IH. reflexivity. Qed.

Lemma interp_points_scale u v vals g xs ys : interp_points u v (map2d (Rmult g) vals) xs ys =
  bind (interp_points u v vals xs ys) (fun r => Ok (map (Rmult g) r)).
Proof.
  unfold interp_points. destruct (Nat.eqb (length xs) (length ys)); [|reflexivity].
  destruct (forallb (in_bounds u) xs && forallb (in_bounds v) ys)%bool; [|reflexivity]. cbn [bind]. f_equal.
  rewrite <- map2_map_out. apply map2_ext. intros. apply interp_scale.
Qed.

(** * The loop *)
Definition rowres (row : nat -> res (list R)) := row.

Lemma assign_row_shape m i r m' : assign_row m i r = Ok m' -> map (@length R) m' = map (@length R) m.
Proof.
  unfold assign_row, py_get. destruct (nth_error m i) as [old|] eqn:E; [|discriminate]. cbn [bind].
  assert (Hi : (i < length m)%nat) by (apply nth_error_Some; congruence).
  assert (Hn : nth i m [] = old) by (erewrite nth_error_nth; [reflexivity|exact E]).
  assert (S : forall row, length row = length old -> py_set m i row = Ok m' -> map (@length R) m' = map (@length R) m).
  { intros row HL H. unfold py_set in H. destruct (Nat.ltb_spec i (length m)); [|lia]. apply Ok_inj in H. subst m'.
    apply nth_ext with (d := length (@nil R)) (d' := length (@nil R)); [rewrite !map_length, set_nth_length; reflexivity|].
    intros k Hk. rewrite !(map_nth (@length R)). destruct (Nat.eq_dec k i) as [->|N].
    - rewrite set_nth_same by assumption. congruence.
    - rewrite set_nth_other by congruence. reflexivity. }
  destruct (Nat.eqb_spec (length r) (length old)) as [HL|HL]; [apply S; exact HL|].
  destruct r as [|x [|? ?]]; try discriminate. apply S. apply repeat_length.
Qed.

Lemma fill_rows_shape row idx m m' : fill_rows row idx m = Ok m' -> map (@length R) m' = map (@length R) m.
Proof.
  revert m; induction idx as [|i idx IH]; cbn; intros m H; [congruence|].
  destruct (row i) as [r|]; [|discriminate]. cbn [bind] in H. destruct (assign_row m i r) as [m1|] eqn:E; [|discriminate]. cbn [bind] in H.
  rewrite (IH m1 H). apply (assign_row_shape _ _ _ _ E).
Qed.

Lemma norm_rows_shape P Q : norm_rows P = Ok Q -> map (@length R) Q = map (@length num) P /\ (forall row q, In row Q -> In q row -> 0 <= q <= 1).
Proof.
  rewrite norm_rows_eq. revert Q; induction P as [|p P IH]; cbn; intros Q H.
  - apply Ok_inj in H. subst. split; [reflexivity|intros ? ? []].
  - destruct (norm_all p) as [q|] eqn:E; [|discriminate]. cbn [bind] in H. destruct (mapM norm_all P) as [Q'|]; [|discriminate]. cbn [bind] in H.
    apply Ok_inj in H. subst Q. destruct (IH Q' eq_refl) as [I1 I2]. destruct (norm_range _ _ E) as [R1 R2]. split; [cbn; congruence|].
    intros row q0 [<-|H] Hq; [apply R2; assumption|apply (I2 row q0 H Hq)].
Qed.

Lemma map2_concat_length (A B : list (list R)) : map (@length R) A = map (@length R) B ->
  length (concat (map2 (map2 Rminus) A B)) = length (concat A).
Proof.
  revert B; induction A as [|a A IH]; intros [|b B] H; cbn in *; try discriminate; [reflexivity|]. injection H as H1 H2.
  rewrite !app_length, map2_length by auto. rewrite (IH B H2). reflexivity.
Qed.

Lemma in_map2_minus (a b : list R) d : In d (map2 Rminus a b) -> exists x y, In x a /\ In y b /\ d = x - y.
Proof.
  revert b; induction a as [|x a IH]; intros [|y b] H; cbn in H; try contradiction. destruct H as [<-|H].
  - exists x, y. repeat split; left; reflexivity.
  - destruct (IH b H) as (x' & y' & Hx & Hy & E). exists x', y'. repeat split; try right; assumption.
Qed.
Lemma in_map2_rows (A B : list (list R)) d : In d (concat (map2 (map2 Rminus) A B)) -> exists ra rb x y, In ra A /\ In rb B /\ In x ra /\ In y rb /\ d = x - y.
Proof.
  revert B; induction A as [|a A IH]; intros [|b B] H; cbn in H; try contradiction. apply in_app_iff in H as [H|H].
  - destruct (in_map2_minus a b d H) as (x & y & Hx & Hy & E). exists a, b, x, y. repeat split; try (left; reflexivity); assumption.
  - destruct (IH B H) as (ra & rb & x & y & H1 & H2 & H3 & H4 & E). exists ra, rb, x, y. repeat split; try (right; assumption); assumption.
Qed.

Lemma residual_shape illum tel params beam u_data v_data d_z wavel N bf r :
  residual_true illum tel params beam u_data v_data d_z wavel N bf = Ok r ->
  length r = length (concat beam) /\ forall x, In x r -> -1 <= x <= 1.
Proof.
  unfold residual_true. cbv zeta.
  destruct (fill_rows _ _ _) as [m|] eqn:EF; [|discriminate]. cbn [bind].
  destruct (norm_rows beam) as [D|] eqn:ED; [|discriminate]. cbn [bind].
  destruct (norm_rows (map (map Fin) m)) as [M|] eqn:EM; [|discriminate]. cbn [bind]. intros H. apply Ok_inj in H. subst r.
  apply fill_rows_shape in EF. rewrite map_map in EF. destruct (norm_rows_shape _ _ ED) as [SD RD]. destruct (norm_rows_shape _ _ EM) as [SM RM].
  rewrite map_map in SM.
  rewrite (map_ext (fun x => length (map (fun _ : num => 0) x)) (@length num)) in EF by (intros; apply map_length).
  rewrite (map_ext (fun x => length (map Fin x)) (@length R)) in SM by (intros; apply map_length).
  split.
  - rewrite map2_concat_length by congruence. clear - SD. revert beam SD. induction D as [|d D IH]; intros [|b beam] H; cbn in *; try discriminate; [reflexivity|].
    injection H as H1 H2. rewrite !app_length, H1, (IH beam H2). reflexivity.
  - intros x Hx. destruct (in_map2_rows _ _ _ Hx) as (ra & rb & a & b & H1 & H2 & H3 & H4 & ->).
    pose proof (RD ra a H1 H3). pose proof (RM rb b H2 H4). lra.
Qed.

(** Three maps of P points each. *)
Lemma fill3 row z0 z1 z2 r0 r1 r2 : row 0%nat = Ok r0 -> row 1%nat = Ok r1 -> row 2%nat = Ok r2 ->
  length r0 = length z0 -> length r1 = length z1 -> length r2 = length z2 ->
  fill_rows row [0; 1; 2]%nat [z0; z1; z2] = Ok [r0; r1; r2].
Proof.
  intros E0 E1 E2 L0 L1 L2. cbn [fill_rows]. rewrite E0, E1, E2. cbn [bind]. unfold assign_row, py_get. cbn [nth_error bind].
  rewrite L0, Nat.eqb_refl. unfold py_set. cbn [length Nat.ltb Nat.leb set_nth bind nth_error]. rewrite L1, Nat.eqb_refl. cbn [bind set_nth nth_error]. rewrite L2, Nat.eqb_refl. reflexivity.
Qed.

Lemma map2_minus_self q : map2 Rminus q q = map (fun _ => 0) q.
Proof. induction q as [|x q IH]; cbn; [reflexivity|]. rewrite IH. f_equal. ring. Qed.

Lemma map_zero {A} (l : list A) : map (fun _ => 0) l = repeat 0 (length l).
Proof. induction l as [|x l IH]; cbn; [reflexivity|]. rewrite IH. reflexivity. Qed.

Lemma residual_exact illum tel params u_data v_data d_z wavel N bf m0 m1 m2 g0 o0 g1 o1 g2 o2 :
  (forall i mi, In (i, mi) [(0%nat, m0); (1%nat, m1); (2%nat, m2)] -> model_row illum tel params u_data v_data d_z wavel N bf i = Ok mi /\ mi <> []) ->
  0 < g0 -> 0 < g1 -> 0 < g2 ->
  residual_true illum tel params [map (affine g0 o0) (map Fin m0); map (affine g1 o1) (map Fin m1); map (affine g2 o2) (map Fin m2)] u_data v_data d_z wavel N bf
  = Ok (repeat 0 (length m0 + length m1 + length m2)).
Proof.
  intros H G0 G1 G2.
  destruct (H 0%nat m0) as [E0 N0]; [left; reflexivity|]. destruct (H 1%nat m1) as [E1 N1]; [right; left; reflexivity|]. destruct (H 2%nat m2) as [E2 N2]; [right; right; left; reflexivity|].
  unfold residual_true. cbv zeta. cbn [map]. rewrite (fill3 _ _ _ _ m0 m1 m2 E0 E1 E2) by (rewrite !map_length; reflexivity). cbn [bind].
  rewrite !norm_rows_eq. cbn [map mapM]. rewrite !norm_affine by assumption.
  destruct (norm_all (map Fin m0)) as [q0|] eqn:Q0; [|destruct m0; [congruence|discriminate]].
  destruct (norm_all (map Fin m1)) as [q1|] eqn:Q1; [|destruct m1; [congruence|discriminate]].
  destruct (norm_all (map Fin m2)) as [q2|] eqn:Q2; [|destruct m2; [congruence|discriminate]].
  cbn [bind map2 concat]. f_equal. rewrite !map2_minus_self, app_nil_r.
  apply norm_range in Q0 as [L0 _]. apply norm_range in Q1 as [L1 _]. apply norm_range in Q2 as [L2 _]. rewrite !map_length in *.
  rewrite !map_zero. rewrite L0, L1, L2. rewrite <- !repeat_app, Nat.add_assoc. reflexivity.
Qed.

(** * Outside the grid *)
Lemma grid_bounds (u : list R) h N x : (2 <= N)%nat -> length u = N -> (forall i, (i < N)%nat -> nth i u 0 = (INR i - INR (N / 2)) * h) ->
  in_bounds u x = true <-> - INR (N / 2) * h <= x <= (INR (N - 1) - INR (N / 2)) * h.
Proof.
  intros HN HL H. unfold in_bounds. rewrite HL, (H 0%nat), (H (N - 1)%nat) by lia. cbn [INR].
  replace ((0 - INR (N / 2)) * h) with (- INR (N / 2) * h) by ring. rewrite andb_true_iff. unfold Rleb.
  destruct (Rle_dec (- INR (N / 2) * h) x), (Rle_dec x ((INR (N - 1) - INR (N / 2)) * h)); split; intros []; try discriminate; try lra; split; reflexivity.
Qed.


Lemma forallb_grid (u : list R) h N xs : (2 <= N)%nat -> length u = N -> (forall i, (i < N)%nat -> nth i u 0 = (INR i - INR (N / 2)) * h) ->
  forallb (in_bounds u) xs = true <-> (forall x, In x xs -> in_grid h N x).
Proof.
  intros HN HL H. rewrite forallb_forall. split; intros G x Hx; specialize (G x Hx); apply (grid_bounds u h N x HN HL H); exact G.
Qed.

Lemma model_row_total illum tel params n u_data v_data d_z wavel N bf i xs ys Ea dz :
  0 < wavel -> 0 < tel_pr tel -> 0 < bf -> (2 <= N)%nat ->
  (2 * (length params - 5) = (n + 1) * (n + 2))%nat -> illum (firstn 5 params) (tel_pr tel) = Ok Ea ->
  nth_error d_z i = Some dz -> nth_error u_data i = Some xs -> nth_error v_data i = Some ys -> length xs = length ys ->
  ((forall x, In x (xs ++ ys) -> in_grid (grid_step (tel_pr tel) wavel N bf) N x) /\ exists r, model_row illum tel params u_data v_data d_z wavel N bf i = Ok r /\ length r = length xs) \/
  (~ (forall x, In x (xs ++ ys) -> in_grid (grid_step (tel_pr tel) wavel N bf) N x) /\ model_row illum tel params u_data v_data d_z wavel N bf i = Err ValueError).
Proof.
  intros Hw Hp Hb HN HK HI Hd Hx Hy HL. unfold model_row. unfold py_get. rewrite Hd, Hx, Hy. cbn [bind].
  assert (HK' : (2 * length (skipn 5 params) = (n + 1) * (n + 2))%nat) by (rewrite skipn_length; exact HK).
  destruct (aperture_ok illum tel (firstn 5 params) (skipn 5 params) dz wavel n Ea HK' HI) as (E & HE & _).
  assert (exists uvF, radiation_pattern illum tel (firstn 5 params) (skipn 5 params) dz wavel N bf = Ok uvF) as [[[u v] F] HR].
  { rewrite rad_unfold by assumption. cbv zeta. rewrite HE. cbn [bind]. eexists. reflexivity. }
  destruct (axes_api _ _ _ _ _ _ _ _ _ _ _ Hw Hp Hb HR) as (<- & Lu & _ & _ & _ & A). cbv zeta in A. fold (grid_step (tel_pr tel) wavel N bf) in A. destruct A as (Hs & An & _ & _).
  rewrite HR. cbn [bind]. unfold interp_points. rewrite HL, Nat.eqb_refl.
  assert (S : (forall x, In x (xs ++ ys) -> in_grid (grid_step (tel_pr tel) wavel N bf) N x) <-> (forall x, In x xs -> in_grid (grid_step (tel_pr tel) wavel N bf) N x) /\ (forall x, In x ys -> in_grid (grid_step (tel_pr tel) wavel N bf) N x)).
  { split; [intros G; split; intros x H; apply G, in_app_iff; auto|]. intros [G1 G2] x H. apply in_app_iff in H as [H|H]; auto. }
  rewrite S. rewrite <- (forallb_grid u _ N xs HN Lu An), <- (forallb_grid u _ N ys HN Lu An).
  destruct (forallb (in_bounds u) xs), (forallb (in_bounds u) ys); cbn [andb].
  - left. split; [split; reflexivity|]. eexists. split; [reflexivity|]. rewrite map2_length; assumption.
  - right. split; [|reflexivity]. intros [_ H]. discriminate.
  - right. split; [|reflexivity]. intros [H _]. discriminate.
  - right. split; [|reflexivity]. intros [H _]. discriminate.
Qed.

Lemma norm_all_ok P : P <> [] -> exists Q, norm_all P = Ok Q.
Proof. intros H. destruct P; [congruence|]. unfold norm_all, np_min, np_max. cbn [bind]. eexists. reflexivity. Qed.

(** C34: on well-shaped inputs the call succeeds exactly when every point is on the grid. *)
Lemma residual_grid illum tel params n b0 b1 b2 x0 x1 x2 y0 y1 y2 z0 z1 z2 wavel N bf Ea :
  0 < wavel -> 0 < tel_pr tel -> 0 < bf -> (2 <= N)%nat ->
  (2 * (length params - 5) = (n + 1) * (n + 2))%nat -> illum (firstn 5 params) (tel_pr tel) = Ok Ea ->
  b0 <> [] -> length b1 = length b0 -> length b2 = length b0 ->
  length x0 = length b0 -> length x1 = length b0 -> length x2 = length b0 -> length y0 = length b0 -> length y1 = length b0 -> length y2 = length b0 ->
  let all := x0 ++ y0 ++ x1 ++ y1 ++ x2 ++ y2 in
  let run := residual_true illum tel params [b0; b1; b2] [x0; x1; x2] [y0; y1; y2] [z0; z1; z2] wavel N bf in
  ((forall x, In x all -> in_grid (grid_step (tel_pr tel) wavel N bf) N x) -> exists r, run = Ok r /\ length r = (3 * length b0)%nat) /\
  ((exists x, In x all /\ ~ in_grid (grid_step (tel_pr tel) wavel N bf) N x) -> run = Err ValueError).
Proof.
  intros Hw Hp Hb HN HK HI Hb0 L1 L2 X0 X1 X2 Y0 Y1 Y2 all run.
  assert (M0 := fun i xs ys dz => model_row_total illum tel params n [x0; x1; x2] [y0; y1; y2] [z0; z1; z2] wavel N bf i xs ys Ea dz Hw Hp Hb HN HK HI).
  destruct (M0 0%nat x0 y0 z0 eq_refl eq_refl eq_refl ltac:(congruence)) as [[G0 (r0 & E0 & R0)]|[G0 E0]].
  2:{ assert (run = Err ValueError) as E by (unfold run, residual_true; cbv zeta; cbn [fill_rows]; rewrite E0; reflexivity).
      split; [|intros _; exact E]. intros G. exfalso. apply G0. intros x Hx. apply G. unfold all. apply in_app_iff in Hx. rewrite !in_app_iff. tauto. }
  assert (A0 : forall z' z'', assign_row (map (map (fun _ : num => 0)) [b0; z'; z'']) 0 r0 = Ok [r0; map (fun _ => 0) z'; map (fun _ => 0) z'']).
  { intros. unfold assign_row, py_get. cbn [nth_error map bind]. rewrite map_length, R0, X0, Nat.eqb_refl. reflexivity. }
  destruct (M0 1%nat x1 y1 z1 eq_refl eq_refl eq_refl ltac:(congruence)) as [[G1 (r1 & E1 & R1)]|[G1 E1]].
  2:{ assert (run = Err ValueError) as E by (unfold run, residual_true; cbv zeta; cbn [fill_rows]; rewrite E0; cbn [bind]; rewrite A0; cbn [bind]; rewrite E1; reflexivity).
      split; [|intros _; exact E]. intros G. exfalso. apply G1. intros x Hx. apply G. unfold all. apply in_app_iff in Hx. rewrite !in_app_iff. tauto. }
  assert (A1 : assign_row [r0; map (fun _ : num => 0) b1; map (fun _ => 0) b2] 1 r1 = Ok [r0; r1; map (fun _ => 0) b2]).
  { unfold assign_row, py_get. cbn [nth_error map bind]. rewrite map_length, R1, X1, L1, Nat.eqb_refl. reflexivity. }
  destruct (M0 2%nat x2 y2 z2 eq_refl eq_refl eq_refl ltac:(congruence)) as [[G2 (r2 & E2 & R2)]|[G2 E2]].
  2:{ assert (run = Err ValueError) as E by (unfold run, residual_true; cbv zeta; cbn [fill_rows]; rewrite E0; cbn [bind]; rewrite A0; cbn [bind]; rewrite E1; cbn [bind]; rewrite A1; cbn [bind]; rewrite E2; reflexivity).
      split; [|intros _; exact E]. intros G. exfalso. apply G2. intros x Hx. apply G. unfold all. apply in_app_iff in Hx. rewrite !in_app_iff. tauto. }
  split.
  - intros _. assert (exists r, run = Ok r) as [r Er].
    { unfold run, residual_true. cbv zeta. cbn [map]. rewrite (fill3 _ _ _ _ r0 r1 r2 E0 E1 E2) by (rewrite map_length; congruence). cbn [bind].
      assert (NN : forall A B (a : list A) (b : list B), a <> [] -> length b = length a -> b <> []) by (intros A B a b H H' ->; destruct a; [congruence|discriminate]).
      rewrite !norm_rows_eq. cbn [map mapM].
      destruct (norm_all_ok b0 Hb0) as [q0 ->]. destruct (norm_all_ok b1 (NN _ _ b0 b1 Hb0 L1)) as [q1 ->]. destruct (norm_all_ok b2 (NN _ _ b0 b2 Hb0 L2)) as [q2 ->]. cbn [bind].
      destruct (norm_all_ok (map Fin r0)) as [p0 ->]; [apply (NN _ _ b0 _ Hb0); rewrite map_length; congruence|].
      destruct (norm_all_ok (map Fin r1)) as [p1 ->]; [apply (NN _ _ b0 _ Hb0); rewrite map_length; congruence|].
      destruct (norm_all_ok (map Fin r2)) as [p2 ->]; [apply (NN _ _ b0 _ Hb0); rewrite map_length; congruence|]. cbn [bind]. eexists. reflexivity. }
    exists r. split; [exact Er|]. apply residual_shape in Er as [-> _]. cbn [concat]. rewrite !app_length. cbn [length]. lia.
  - intros (x & Hx & Nx). exfalso. apply Nx. unfold all in Hx. rewrite !in_app_iff in Hx.
    destruct Hx as [H|[H|[H|[H|[H|H]]]]]; [apply G0|apply G0|apply G1|apply G1|apply G2|apply G2]; rewrite in_app_iff; tauto.
Qed.

(** * C32: the residual does not see piston or amplitude *)
Definition scaled (m m' : list (list R)) : Prop := Forall2 (fun a b => exists g, 0 < g /\ b = map (Rmult g) a) m m'.

Lemma scaled_refl m : scaled m m.
Proof. induction m as [|a m IH]; constructor; [|exact IH]. exists 1. split; [lra|]. rewrite <- (map_id a) at 1. apply map_ext. intros; ring. Qed.
Lemma scaled_nth m m' i : scaled m m' -> match nth_error m i, nth_error m' i with Some a, Some b => exists g, 0 < g /\ b = map (Rmult g) a | None, None => True | _, _ => False end.
Proof. intros H. revert i. induction H as [|a b m m' Hab H IH]; intros [|i]; cbn; auto. apply IH. Qed.
Lemma scaled_set m m' i a b : scaled m m' -> (exists g, 0 < g /\ b = map (Rmult g) a) -> scaled (set_nth m i a) (set_nth m' i b).
Proof. intros H Hab. revert i. induction H as [|x y m m' Hxy H IH]; intros [|i]; cbn; constructor; auto. apply IH. Qed.

Lemma assign_scaled m m' i r g : scaled m m' -> 0 < g ->
  match assign_row m i r, assign_row m' i (map (Rmult g) r) with Ok a, Ok b => scaled a b | Err e, Err e' => e = e' | _, _ => False end.
Proof.
  intros H Hg. unfold assign_row, py_get. pose proof (scaled_nth m m' i H) as Hi.
  destruct (nth_error m i) as [a|] eqn:Ea, (nth_error m' i) as [b|] eqn:Eb; try contradiction; cbn [bind]; [|reflexivity].
  destruct Hi as (g' & _ & ->). rewrite !map_length.
  assert (HL : length m = length m') by (clear - H; induction H; cbn; congruence).
  destruct (Nat.eqb (length r) (length a)).
  - unfold py_set. rewrite HL. destruct (Nat.ltb i (length m')); [|reflexivity]. apply scaled_set; [exact H|exists g; auto].
  - destruct r as [|x [|? ?]]; cbn [map]; try reflexivity. unfold py_set. rewrite HL. destruct (Nat.ltb i (length m')); [|reflexivity].
    apply scaled_set; [exact H|exists g; split; [exact Hg|]]. rewrite map_repeat || (clear; induction (length a) as [|k IH]; cbn; congruence).
Qed.

Lemma fill_scaled row row' idx m m' : (forall i, exists g, 0 < g /\ row' i = bind (row i) (fun r => Ok (map (Rmult g) r))) -> scaled m m' ->
  match fill_rows row idx m, fill_rows row' idx m' with Ok a, Ok b => scaled a b | Err e, Err e' => e = e' | _, _ => False end.
Proof.
  intros Hrow. revert m m'; induction idx as [|i idx IH]; intros m m' H; cbn [fill_rows]; [exact H|].
  destruct (Hrow i) as (g & Hg & ->). destruct (row i) as [r|e]; cbn [bind]; [|reflexivity].
  pose proof (assign_scaled m m' i r g H Hg) as HA. destruct (assign_row m i r) as [a|e], (assign_row m' i (map (Rmult g) r)) as [b|e']; try contradiction; cbn [bind]; [|exact HA].
  apply IH. exact HA.
Qed.

Lemma norm_scaled m m' : scaled m m' -> norm_rows (map (map Fin) m) = norm_rows (map (map Fin) m').
Proof.
  intros H. rewrite !norm_rows_eq. induction H as [|a b m m' (g & Hg & ->) H IH]; [reflexivity|]. cbn [map mapM]. rewrite IH.
  replace (map Fin (map (Rmult g) a)) with (map (affine g 0) (map Fin a)).
  - rewrite norm_affine by assumption. reflexivity.
  - rewrite !map_map. apply map_ext. intros x. cbn. rewrite Rplus_0_r. reflexivity.
Qed.

Lemma residual_scaled illum tel params params' beam u_data v_data d_z wavel N bf :
  (forall i, exists g, 0 < g /\ model_row illum tel params' u_data v_data d_z wavel N bf i =
    bind (model_row illum tel params u_data v_data d_z wavel N bf i) (fun r => Ok (map (Rmult g) r))) ->
  residual_true illum tel params' beam u_data v_data d_z wavel N bf = residual_true illum tel params beam u_data v_data d_z wavel N bf.
Proof.
  intros H. unfold residual_true. cbv zeta. pose proof (fill_scaled _ _ [0; 1; 2]%nat _ _ H (scaled_refl (map (map (fun _ => 0)) beam))) as HF.
  destruct (fill_rows (model_row illum tel params _ _ _ _ _ _) _ _) as [a|e], (fill_rows (model_row illum tel params' _ _ _ _ _ _) _ _) as [b|e']; try contradiction; cbn [bind]; [|congruence].
  rewrite (norm_scaled a b HF). reflexivity.
Qed.

Lemma model_row_gen illum tel params params' u_data v_data d_z wavel N bf g i :
  (forall dz u v F, radiation_pattern illum tel (firstn 5 params) (skipn 5 params) dz wavel N bf = Ok (u, v, F) ->
     exists F', radiation_pattern illum tel (firstn 5 params') (skipn 5 params') dz wavel N bf = Ok (u, v, F') /\ power_pattern F' = map2d (Rmult g) (power_pattern F)) ->
  (forall dz e, radiation_pattern illum tel (firstn 5 params) (skipn 5 params) dz wavel N bf = Err e -> radiation_pattern illum tel (firstn 5 params') (skipn 5 params') dz wavel N bf = Err e) ->
  model_row illum tel params' u_data v_data d_z wavel N bf i = bind (model_row illum tel params u_data v_data d_z wavel N bf i) (fun r => Ok (map (Rmult g) r)).
Proof.
  intros H1 H2. unfold model_row. destruct (py_get d_z i) as [dz|]; [|reflexivity]. cbn [bind].
  destruct (radiation_pattern illum tel (firstn 5 params) (skipn 5 params) dz wavel N bf) as [[[u v] F]|e] eqn:E.
  - destruct (H1 dz u v F E) as (F' & -> & P). cbn [bind]. rewrite P. destruct (py_get u_data i) as [xs|]; [|reflexivity]. cbn [bind].
    destruct (py_get v_data i) as [ys|]; [|reflexivity]. cbn [bind]. apply interp_points_scale.
  - rewrite (H2 dz e E). reflexivity.
Qed.

Lemma classic_tri m : (exists n, 2 * m = (n + 1) * (n + 2))%nat \/ (forall n, 2 * m <> (n + 1) * (n + 2))%nat.
Proof.
  destruct (triangular_bracket m) as [k [H1 H2]]. destruct (Nat.eq_dec (2 * m) (k * (k + 1))) as [E|E].
  - destruct k as [|k]; [|left; exists k; lia]. right. intros n. cbn in E. assert (m = 0)%nat by lia. subst. nia.
  - right. intros n Hn. assert (k <= n + 1)%nat by nia. assert (n + 1 <= k)%nat by nia. apply E. replace k with (n + 1)%nat by lia. lia.
Qed.

Lemma wavefront_err k k' K e : wavefront (k :: K) = Err e -> wavefront (k' :: K) = Err e.
Proof.
  intros H. destruct (wavefront (k' :: K)) as [W|e'] eqn:E'.
  - exfalso. destruct (wavefront_triangular _ _ E') as [n Hn]. destruct (wavefront_series (k :: K) n Hn) as (W' & E & _). congruence.
  - destruct (classic_tri (length (k :: K))) as [[n Hn]|Hn].
    + destruct (wavefront_series (k :: K) n Hn) as (W' & E & _). congruence.
    + rewrite wavefront_bad_api in H by (first [discriminate|exact Hn]). rewrite wavefront_bad_api in E' by (first [discriminate|exact Hn]). congruence.
Qed.

Lemma rad_err illum tel I K d_z wavel N bf e : radiation_pattern illum tel I K d_z wavel N bf = Err e ->
  ((N < 2)%nat /\ e = IndexError) \/ ((2 <= N)%nat /\ aperture illum tel I K d_z wavel = Err e).
Proof.
  intros H. destruct (le_lt_dec 2 N) as [HN|HN].
  - right. split; [exact HN|]. rewrite rad_unfold in H by assumption. cbv zeta in H. destruct (aperture illum tel I K d_z wavel); [discriminate|]. cbn [bind] in H. congruence.
  - left. split; [exact HN|]. rewrite rad_small in H by assumption. congruence.
Qed.

Lemma residual_piston illum tel I k k' K beam u_data v_data d_z wavel N bf : length I = 5%nat ->
  residual_true illum tel (I ++ k' :: K) beam u_data v_data d_z wavel N bf = residual_true illum tel (I ++ k :: K) beam u_data v_data d_z wavel N bf.
Proof.
  intros HI. apply residual_scaled. intros i. exists 1. split; [lra|].
  assert (F5 : forall K, firstn 5 (I ++ K) = I) by (intros; rewrite <- HI, firstn_app, Nat.sub_diag, firstn_all, firstn_O, app_nil_r; reflexivity).
  assert (S5 : forall K, skipn 5 (I ++ K) = K) by (intros; rewrite <- HI, skipn_app, Nat.sub_diag, skipn_all; reflexivity).
  apply model_row_gen.
  - intros dz u v F. rewrite !F5, !S5. intros H.
    destruct (rad_inv _ _ _ _ _ _ _ _ _ _ _ H) as (HN & E & HE & EF & Eu & Ev).
    assert (exists E', aperture illum tel I (k' :: K) dz wavel = Ok E') as [E' HE'].
    { destruct (aperture_value _ _ _ _ _ _ _ HE) as (Ea & W & EI & EW & _). destruct (wavefront_triangular _ _ EW) as [n Hn].
      destruct (aperture_ok illum tel I (k' :: K) dz wavel n Ea Hn EI) as (E' & HE' & _). exists E'. exact HE'. }
    assert (exists uvF, radiation_pattern illum tel I (k' :: K) dz wavel N bf = Ok uvF) as [[[u' v'] F'] HR].
    { rewrite rad_unfold by assumption. cbv zeta. rewrite HE'. cbn [bind]. eexists. reflexivity. }
    destruct (power_piston _ _ _ _ _ _ _ _ _ _ _ _ _ _ _ _ H HR) as (-> & -> & P). exists F'. split; [exact HR|]. rewrite map2d_1. exact P.
  - intros dz e. rewrite !F5, !S5. intros H. destruct (rad_err _ _ _ _ _ _ _ _ _ H) as [[HN ->]|[HN HA]].
    + apply rad_small. exact HN.
    + rewrite rad_unfold by assumption. cbv zeta.
      assert (aperture illum tel I (k' :: K) dz wavel = Err e) as ->; [|reflexivity].
      unfold aperture in *. cbv zeta in *. destruct (wavefront (k :: K)) as [W|e0] eqn:EW.
      * destruct (wavefront_triangular _ _ EW) as [n Hn]. destruct (wavefront_series (k' :: K) n Hn) as (W' & -> & _). cbn [bind] in *.
        destruct (illum I (tel_pr tel)); [discriminate|]. cbn [bind] in *. congruence.
      * rewrite (wavefront_err k k' K e0 EW). cbn [bind] in *. congruence.
Qed.

Lemma residual_amplitude tel i_amp i_amp' c_dB q x0 y0 K beam u_data v_data d_z wavel N bf : 0 < tel_pr tel -> 0 < q -> i_amp <> 0 -> i_amp' <> 0 ->
  residual_true illum_parabolic tel (i_amp' :: c_dB :: q :: x0 :: y0 :: K) beam u_data v_data d_z wavel N bf =
  residual_true illum_parabolic tel (i_amp :: c_dB :: q :: x0 :: y0 :: K) beam u_data v_data d_z wavel N bf.
Proof.
  intros Hp Hq Hi Hi'. apply residual_scaled. intros i. set (g := i_amp' / i_amp). assert (Hg : g <> 0) by (unfold g, Rdiv; apply Rmult_integral_contrapositive_currified; [assumption|apply Rinv_neq_0_compat; assumption]).
  assert (Eg : i_amp' = g * i_amp) by (unfold g; field; assumption).
  exists (g ^ 2). split; [nra|]. apply model_row_gen; cbn [firstn skipn].
  - intros dz u v F H. rewrite Eg. apply power_gain_parabolic; assumption.
  - intros dz e H. destruct (rad_err _ _ _ _ _ _ _ _ _ H) as [[HN ->]|[HN HA]].
    + apply rad_small. exact HN.
    + rewrite rad_unfold by assumption. cbv zeta. unfold aperture in *. cbv zeta in *. destruct (wavefront K) as [W|e0]; cbn [bind] in *; [|congruence].
      discriminate.
Qed.

(** * C60: interp=False never succeeds *)
Lemma nointerp_fails illum tel params beam d_z wavel N bf : residual_true_nointerp illum tel params beam d_z wavel N bf <> Ok tt.
Proof.
  destruct (le_lt_dec 2 N) as [HN|HN].
  2:{ intros H. unfold residual_true_nointerp in H. cbv zeta in H. destruct (py_get d_z 0); [|discriminate]. cbn [bind] in H. rewrite rad_small in H by assumption. discriminate. }
  assert (LF : forall dz u v F, radiation_pattern illum tel (firstn 5 params) (skipn 5 params) dz wavel N bf = Ok (u, v, F) -> length F = N).
  { intros dz u v F E. destruct (rad_inv _ _ _ _ _ _ _ _ _ _ _ E) as (_ & E' & _ & EF & _). subst F. apply (fftshift2_rect _ N N), fft2_rect; [apply sampled_rect|lia]. }
  intros H. unfold residual_true_nointerp in H. cbv zeta in H. unfold py_get at 1 in H.
  destruct (nth_error d_z 0) as [dz|]; [|discriminate]. cbn [bind] in H.
  destruct (radiation_pattern illum tel (firstn 5 params) (skipn 5 params) dz wavel N bf) as [[[u v] F]|e] eqn:E; [|discriminate]. cbn [bind] in H.
  rewrite (LF _ _ _ _ E) in H. destruct beam as [a|a]; cbn [assign_power] in H.
  - destruct (py_get a 0) as [row|]; [|discriminate]. cbn [bind] in H. destruct (Nat.eqb_spec N 1); [lia|]. discriminate.
  - unfold py_get at 1 in H. destruct a as [|M a]; [discriminate|]. cbn [nth_error bind] in H.
    destruct (Nat.eqb_spec N 1) as [|_]; [lia|]. rewrite !orb_false_r in H.
    destruct (Nat.eqb_spec N (length M)) as [E1|]; [|rewrite andb_false_r in H; discriminate].
    destruct (Nat.eqb_spec N (ncols M)) as [E2|]; [|rewrite andb_false_r in H; discriminate].
    match type of H with bind ?x _ = _ => destruct x; [|discriminate] end. cbn [bind] in H.
    match type of H with bind ?x _ = _ => destruct x; [|discriminate] end. cbn [bind] in H.
    match type of H with bind (bind (py_get d_z 2) ?f) _ = _ => destruct (py_get d_z 2) as [dz2|]; [|discriminate] end. cbn [bind] in H.
    destruct (radiation_pattern illum tel (firstn 5 params) (skipn 5 params) dz2 wavel N bf) as [[[u2 v2] F2]|e]; [|discriminate]. cbn [bind] in H.
    destruct a as [|M1 [|M2 a]]; cbn [py_get nth_error bind] in H; try discriminate.
    match type of H with bind ?x _ = _ => destruct x; [|discriminate] end. cbn [bind] in H.
    unfold norm_cube in H. cbn [length] in H. rewrite <- E1, <- E2 in H. unfold bcast_ok in H.
    destruct (Nat.eqb_spec N (S (S (S (length a))) * N)); [nia|]. destruct (Nat.eqb_spec N 1); [lia|]. destruct (Nat.eqb_spec (S (S (S (length a))) * N) 1); [nia|]. discriminate.
Qed.

(** On otherwise valid input the exception is a ValueError. *)
Lemma nointerp_valueerror illum tel params n Ea M0 M1 M2 z0 z1 z2 wavel N bf : (2 <= N)%nat ->
  (2 * (length params - 5) = (n + 1) * (n + 2))%nat -> illum (firstn 5 params) (tel_pr tel) = Ok Ea ->
  (forall M, In M [M0; M1; M2] -> length M = N /\ ncols M = N) ->
  residual_true_nointerp illum tel params (Cube [M0; M1; M2]) [z0; z1; z2] wavel N bf = Err ValueError.
Proof.
  intros HN HK HI HM. unfold residual_true_nointerp. cbv zeta. cbn [py_get nth_error bind].
  assert (HK' : (2 * length (skipn 5 params) = (n + 1) * (n + 2))%nat) by (rewrite skipn_length; exact HK).
  assert (HR : forall dz, exists u v F, radiation_pattern illum tel (firstn 5 params) (skipn 5 params) dz wavel N bf = Ok (u, v, F) /\ length F = N).
  { intros dz. destruct (aperture_ok illum tel (firstn 5 params) (skipn 5 params) dz wavel n Ea HK' HI) as (E & HE & _).
    rewrite rad_unfold by assumption. cbv zeta. rewrite HE. cbn [bind]. eexists _, _, _. split; [reflexivity|]. apply (fftshift2_rect _ N N), fft2_rect; [apply sampled_rect|lia]. }
  destruct (HM M0) as [A0 B0]; [left; reflexivity|]. destruct (HM M1) as [A1 B1]; [right; left; reflexivity|]. destruct (HM M2) as [A2 B2]; [right; right; left; reflexivity|].
  assert (BB : bcast_ok N N = true) by (unfold bcast_ok; rewrite Nat.eqb_refl; reflexivity).
  destruct (HR z0) as (u0 & v0 & F0 & -> & L0). destruct (HR z1) as (u1 & v1 & F1 & -> & L1). destruct (HR z2) as (u2 & v2 & F2 & -> & L2). cbn [bind assign_power py_get nth_error].
  rewrite L0, L1, L2, A0, B0, A1, B1, A2, B2, BB, Nat.eqb_refl. cbn [bind andb orb].
  unfold norm_cube. cbn [length]. rewrite A0, B0. unfold bcast_ok.
  destruct (Nat.eqb_spec N (3 * N)); [lia|]. destruct (Nat.eqb_spec N 1); [lia|]. destruct (Nat.eqb_spec (3 * N) 1); [lia|]. reflexivity.
Qed.
