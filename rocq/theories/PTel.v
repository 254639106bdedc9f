(** C23-C26: telescope geometry. *)
From Verif Require Import PyBase PyLib Num MMath MTel STel PSnr.
Open Scope R_scope.

Ltac bools := repeat match goal with
  | |- context [Rltb ?a ?b] => destruct (Rltb_spec a b)
  | H : context [Rltb ?a ?b] |- _ => destruct (Rltb_spec a b)
  end.

Lemma Rabs_lt_iff x a : Rabs x < a <-> - a < x < a.
Proof. split; [intros H; apply Rabs_def2 in H; lra|intros; apply Rabs_def1; lra]. Qed.

Lemma legcond len a x y : (Rltb (- len) x && Rltb x len && Rltb (- a) y && Rltb y a)%bool = true <-> (Rabs x < len /\ Rabs y < a).
Proof. rewrite !andb_true_iff, !Rltb_true, !Rabs_lt_iff. tauto. Qed.

Lemma assign_true c v b : c = true -> assign c v b = v. Proof. intros ->. reflexivity. Qed.
Lemma assign_false c v b : c = false -> assign c v b = b. Proof. intros ->. reflexivity. Qed.

Lemma assign0 c b : (b = 0 \/ b = 1) -> (assign c 0 b = 0 \/ assign c 0 b = 1) /\ (assign c 0 b = 1 <-> (c = false /\ b = 1)).
Proof. intros H. destruct c; cbn; split; auto; split; intros; [lra|destruct H0; discriminate|auto|tauto]. Qed.

Lemma assign1 c : (assign c 1 0 = 0 \/ assign c 1 0 = 1) /\ (assign c 1 0 = 1 <-> c = true).
Proof. destruct c; cbn; split; auto; split; intros; auto; try lra; discriminate. Qed.

Lemma anncond pr sr x y : (Rltb (x ^ 2 + y ^ 2) (pr ^ 2) && Rltb (sr ^ 2) (x ^ 2 + y ^ 2))%bool = true <-> annulus pr sr x y.
Proof. rewrite andb_true_iff, !Rltb_true. unfold annulus. tauto. Qed.

Lemma not_true b : b = false <-> ~ b = true.
Proof. destruct b; split; congruence. Qed.

Lemma block_manual_iff pr sr a L x y :
  (block_manual pr sr a L x y = 0 \/ block_manual pr sr a L x y = 1) /\
  (block_manual pr sr a L x y = 1 <-> annulus pr sr x y /\ ~ legs a (sr + L) x y).
Proof.
  unfold block_manual. cbv zeta.
  set (c1 := (Rltb (x ^ 2 + y ^ 2) _ && _)%bool). destruct (assign1 c1) as [V1 E1].
  set (c2 := (Rltb (- (sr + L)) x && _ && _ && _)%bool). destruct (assign0 c2 _ V1) as [V2 E2].
  set (c3 := (Rltb (- (sr + L)) y && _ && _ && _)%bool). destruct (assign0 c3 _ V2) as [V3 E3].
  split; [exact V3|]. rewrite E3, E2, E1, !not_true. unfold c1, c2, c3. rewrite !legcond, anncond. unfold legs. tauto.
Qed.

Lemma annulus_sym pr sr x y : (annulus pr sr (- x) y <-> annulus pr sr x y) /\ (annulus pr sr x (- y) <-> annulus pr sr x y) /\ (annulus pr sr y x <-> annulus pr sr x y).
Proof.
  unfold annulus. replace ((- x) ^ 2) with (x ^ 2) by ring. replace ((- y) ^ 2) with (y ^ 2) by ring. rewrite (Rplus_comm (y ^ 2)). tauto.
Qed.
Lemma legs_sym a l x y : (legs a l (- x) y <-> legs a l x y) /\ (legs a l x (- y) <-> legs a l x y) /\ (legs a l y x <-> legs a l x y).
Proof. unfold legs. rewrite !Rabs_Ropp. tauto. Qed.

Lemma two_valued a b : (a = 0 \/ a = 1) -> (b = 0 \/ b = 1) -> (a = 1 <-> b = 1) -> a = b.
Proof. intros [->| ->] [->| ->] [H1 H2]; try reflexivity; exfalso; [pose proof (H2 eq_refl)|pose proof (H1 eq_refl)]; lra. Qed.

Lemma block_manual_sym pr sr a L x y :
  block_manual pr sr a L (- x) y = block_manual pr sr a L x y /\
  block_manual pr sr a L x (- y) = block_manual pr sr a L x y /\
  block_manual pr sr a L y x = block_manual pr sr a L x y.
Proof.
  destruct (annulus_sym pr sr x y) as (A1 & A2 & A3). destruct (legs_sym a (sr + L) x y) as (L1 & L2 & L3).
  repeat split; apply two_valued; try apply block_manual_iff; rewrite !(proj2 (block_manual_iff _ _ _ _ _ _)); tauto.
Qed.

(** C24. *)
Lemma block_a0 pr sr L x y : block_manual pr sr 0 L x y = 1 <-> annulus pr sr x y.
Proof.
  rewrite (proj2 (block_manual_iff _ _ _ _ _ _)). unfold legs.
  assert (~ Rabs x < 0) by (pose proof (Rabs_pos x); lra). assert (~ Rabs y < 0) by (pose proof (Rabs_pos y); lra). tauto.
Qed.

Lemma block_L0 pr sr a x y : block_manual pr sr a 0 x y = 1 <-> annulus pr sr x y /\ ~ legs a sr x y.
Proof. rewrite (proj2 (block_manual_iff _ _ _ _ _ _)), Rplus_0_r. tauto. Qed.

Lemma block_L0_refuted : exists pr sr a x y, 0 < sr < pr /\ 0 < a < sr /\ annulus pr sr x y /\ block_manual pr sr a 0 x y = 0.
Proof.
  exists 50, (13 / 4), 1, (81 / 25), (9 / 10). repeat split; try lra.
  destruct (block_manual_iff 50 (13 / 4) 1 0 (81 / 25) (9 / 10)) as [[E|E] H]; [exact E|].
  exfalso. apply (proj1 H) in E as [_ N]. apply N. unfold legs. left. rewrite !Rabs_lt_iff. lra.
Qed.

Lemma block_sr0 pr a L : block_manual pr 0 a L 0 0 = 0.
Proof.
  destruct (block_manual_iff pr 0 a L 0 0) as [[E|E] H]; [exact E|]. apply (proj1 H) in E as [N _]. unfold annulus in N. lra.
Qed.

Lemma block_sr0_iff pr L x y : block_manual pr 0 0 L x y = 1 <-> x ^ 2 + y ^ 2 < pr ^ 2 /\ ~ (x = 0 /\ y = 0).
Proof.
  rewrite block_a0. unfold annulus. split.
  - intros H. split; [lra|]. intros [-> ->]. lra.
  - intros [H N]. split; [|exact H].
    pose proof (pow2_ge_0 x). pose proof (pow2_ge_0 y).
    destruct (Req_dec x 0) as [->|Hx].
    + destruct (Req_dec y 0) as [->|Hy]; [exfalso; auto|]. nra.
    + nra.
Qed.

(** C25. *)
Definition dd (alpha : R) : R := (-1 + sqrt (1 + 2499 * / (sin alpha) ^ 2)) / (/ (sin alpha) ^ 2).
Definition CC (alpha : R) : R := dd alpha * (cos alpha / sin alpha).

Lemma csc2_fin alpha : sin alpha <> 0 -> 0 < / (sin alpha) ^ 2.
Proof. intros H. apply Rinv_0_lt_compat. nra. Qed.

Definition d_of (alpha : R) : num := let csc2 := csc2_of alpha in
  ndiv (nadd (Fin (- 1)) (nsqrt (nsub (Fin (1 ^ 2)) (nmul (Fin (1 ^ 2 - 50 ^ 2)) csc2)))) csc2.
Definition C_of (alpha : R) : num := ndiv (d_of alpha) (ndiv (Fin (sin alpha)) (Fin (cos alpha))).

Lemma d_of_fin alpha : sin alpha <> 0 -> d_of alpha = Fin (dd alpha).
Proof.
  intros H. unfold d_of, csc2_of. destruct (Req_EM_T (sin alpha) 0); [contradiction|]. cbv zeta.
  pose proof (csc2_fin alpha H) as Hp. set (c := / sin alpha ^ 2) in *.
  cbn [nmul nsub nneg nadd nsqrt].
  replace (1 ^ 2 + - ((1 ^ 2 - 50 ^ 2) * c)) with (1 + 2499 * c) by ring.
  destruct (Rle_dec 0 (1 + 2499 * c)); [|exfalso; lra]. cbn [nadd ndiv]. destruct (Req_EM_T c 0); [exfalso; lra|]. reflexivity.
Qed.

Lemma C_of_fin alpha : sin alpha <> 0 -> C_of alpha = Fin (CC alpha).
Proof.
  intros H. unfold C_of, CC. rewrite d_of_fin by assumption. cbn [ndiv]. destruct (Req_EM_T (cos alpha) 0) as [E|E].
  - rewrite E. unfold inf_sign. replace (dd alpha * (0 / sin alpha)) with 0 by (unfold Rdiv; ring).
    destruct (Rlt_dec 0 (sin alpha)); [reflexivity|]. destruct (Rlt_dec (sin alpha) 0); [reflexivity|exfalso; lra].
  - destruct (Req_EM_T (sin alpha / cos alpha) 0) as [E'|_].
    + exfalso. apply H. apply Rmult_eq_reg_r with (/ cos alpha); [|apply Rinv_neq_0_compat; assumption]. rewrite Rmult_0_l. exact E'.
    + f_equal. field. split; assumption.
Qed.

Lemma d_of_nan alpha : sin alpha = 0 -> d_of alpha = NaN.
Proof.
  intros H. unfold d_of, csc2_of. destruct (Req_EM_T (sin alpha) 0); [|contradiction]. cbv zeta.
  cbn [nmul]. unfold inf_sign. replace (1 ^ 2 - 50 ^ 2) with (-2499) by ring. destruct (Rlt_dec 0 (-2499)); [lra|]. destruct (Rlt_dec (-2499) 0); [|lra]. reflexivity.
Qed.

Lemma block_effelsberg_unfold alpha x y : block_effelsberg alpha x y =
  let C := C_of alpha in let D := nadd (Fin 1) (d_of alpha) in let A := Fin (13 / 4 + 20) in let B := Fin 1 in
  let X := Fin x in let Y := Fin y in
  assign (Rltb y 50 && nlt C Y && Rltb y (circ x) && Rltb (- circ x) y) 0
  (assign (nlt A Y && ngt C Y && nlt (line_equation (A, nneg B) (C, nneg D) Y) X && ngt (line_equation (A, B) (C, D) Y) X) 0
  (assign (Rltb (- (50)) x && ngt (nneg C) X && Rltb y (circ x) && Rltb (- circ x) y) 0
  (assign (ngt (nneg A) X && nlt (nneg C) X && nlt (line_equation (nneg A, nneg B) (nneg C, nneg D) X) Y && ngt (line_equation (nneg A, B) (nneg C, D) X) Y) 0
  (assign (Rltb (- (50)) y && ngt (nneg C) Y && Rltb x (circ y) && Rltb (- circ y) x) 0
  (assign (ngt (nneg A) Y && nlt (nneg C) Y && nlt (line_equation (nneg A, nneg B) (nneg C, nneg D) Y) X && ngt (line_equation (nneg A, B) (nneg C, D) Y) X) 0
  (assign (Rltb x 50 && nlt C X && Rltb y (circ x) && Rltb (- circ x) y) 0
  (assign (nlt A X && ngt C X && ngt (line_equation (A, B) (C, D) X) Y && nlt (line_equation (A, nneg B) (C, nneg D) X) Y) 0
  (block_manual 50 (13 / 4) 1 20 x y)))))))).
Proof. reflexivity. Qed.

Lemma nlt_fin a b : nlt (Fin a) (Fin b) = true <-> a < b.
Proof. cbn. apply Rltb_true. Qed.
Lemma ngt_fin a b : ngt (Fin a) (Fin b) = true <-> b < a.
Proof. unfold ngt. apply nlt_fin. Qed.

(** sin alpha = 0: no shade at all. *)
Lemma block_no_shade alpha x y : sin alpha = 0 -> block_effelsberg alpha x y = block_manual 50 (13 / 4) 1 20 x y.
Proof.
  intros H. rewrite block_effelsberg_unfold. cbv zeta. unfold C_of. rewrite d_of_nan by assumption.
  cbn [ndiv nneg nlt ngt]. rewrite !andb_false_r. cbn [andb assign]. reflexivity.
Qed.

Lemma circ_dish x y : x ^ 2 + y ^ 2 < 50 ^ 2 -> - circ x < y < circ x /\ - (50) < x < 50.
Proof.
  intros H. pose proof (pow2_ge_0 x). pose proof (pow2_ge_0 y).
  assert (- (50) < x < 50) by (split; nra). split; [|assumption].
  unfold circ. rewrite Rabs_right by nra. rewrite <- Rabs_lt_iff.
  rewrite <- sqrt_Rsqr_abs. apply sqrt_lt_1_alt. unfold Rsqr. split; nra.
Qed.

(** Trapezium conditions. *)
Lemma trap C D x y :
  (nlt (Fin (13 / 4 + 20)) (Fin x) && ngt (Fin C) (Fin x) && ngt (line_equation (Fin (13 / 4 + 20), Fin 1) (Fin C, Fin D) (Fin x)) (Fin y)
    && nlt (line_equation (Fin (13 / 4 + 20), nneg (Fin 1)) (Fin C, nneg (Fin D)) (Fin x)) (Fin y))%bool = true
  <-> (93 / 4 < x < C /\ Rabs y < 1 + (x - 93 / 4) * ((D - 1) / (C - 93 / 4))).
Proof.
  replace (13 / 4 + 20) with (93 / 4) by field.
  rewrite !andb_true_iff, nlt_fin, ngt_fin. cbn [nneg].
  destruct (Rlt_dec (93 / 4) x) as [H1|H1]; [|tauto]. destruct (Rlt_dec x C) as [H2|H2]; [|tauto].
  rewrite !line_finite by lra. rewrite ngt_fin, nlt_fin, Rabs_lt_iff.
  replace ((- D - - (1)) / (C - 93 / 4) * (x - 93 / 4) + - (1)) with (- (1 + (x - 93 / 4) * ((D - 1) / (C - 93 / 4)))) by (unfold Rdiv; ring).
  replace ((D - 1) / (C - 93 / 4) * (x - 93 / 4) + 1) with (1 + (x - 93 / 4) * ((D - 1) / (C - 93 / 4))) by (unfold Rdiv; ring).
  tauto.
Qed.

Lemma line_neg x1 y1 x2 y2 x : x1 <> x2 -> line_equation (Fin (- x1), Fin y1) (Fin (- x2), Fin y2) (Fin x) = line_equation (Fin x1, Fin y1) (Fin x2, Fin y2) (Fin (- x)).
Proof. intros H. rewrite !line_finite by lra. f_equal. field. split; lra. Qed.

Lemma trap_neg C D x y :
  (ngt (nneg (Fin (13 / 4 + 20))) (Fin x) && nlt (nneg (Fin C)) (Fin x) && nlt (line_equation (nneg (Fin (13 / 4 + 20)), nneg (Fin 1)) (nneg (Fin C), nneg (Fin D)) (Fin x)) (Fin y)
    && ngt (line_equation (nneg (Fin (13 / 4 + 20)), Fin 1) (nneg (Fin C), Fin D) (Fin x)) (Fin y))%bool = true
  <-> (93 / 4 < - x < C /\ Rabs y < 1 + (- x - 93 / 4) * ((D - 1) / (C - 93 / 4))).
Proof.
  rewrite <- trap. replace (13 / 4 + 20) with (93 / 4) by field. cbn [nneg].
  rewrite !andb_true_iff, !nlt_fin, !ngt_fin, ?nlt_fin.
  destruct (Rlt_dec (93 / 4) (- x)) as [H1|H1]; [|split; intros; exfalso; lra].
  destruct (Rlt_dec (- x) C) as [H2|H2]; [|split; intros; exfalso; lra].
  rewrite !line_neg by lra. rewrite !line_finite by lra. rewrite !ngt_fin, !nlt_fin. split; intros; repeat split; tauto || lra.
Qed.

(** The general description, for every angle with sin alpha <> 0. *)
Lemma block_effelsberg_iff alpha x y : sin alpha <> 0 ->
  (block_effelsberg alpha x y = 0 \/ block_effelsberg alpha x y = 1) /\
  (block_effelsberg alpha x y = 1 <-> annulus 50 (13 / 4) x y /\ ~ legs 1 (93 / 4) x y /\ ~ shades (CC alpha) (1 + dd alpha) x y).
Proof.
  intros H. rewrite block_effelsberg_unfold. cbv zeta. rewrite C_of_fin, d_of_fin by assumption. change (nadd (Fin 1) (Fin (dd alpha))) with (Fin (1 + dd alpha)).
  set (C := CC alpha). set (D := 1 + dd alpha).
  destruct (block_manual_iff 50 (13 / 4) 1 20 x y) as [V0 E0]. replace (13 / 4 + 20) with (93 / 4) in E0 by field.
  match goal with |- context [assign ?c8 0 (assign ?c7 0 (assign ?c6 0 (assign ?c5 0 (assign ?c4 0 (assign ?c3 0 (assign ?c2 0 (assign ?c1 0 (block_manual _ _ _ _ _ _)))))))) = 0] =>
    destruct (assign0 c1 _ V0) as [V1 E1]; destruct (assign0 c2 _ V1) as [V2 E2]; destruct (assign0 c3 _ V2) as [V3 E3];
    destruct (assign0 c4 _ V3) as [V4 E4]; destruct (assign0 c5 _ V4) as [V5 E5]; destruct (assign0 c6 _ V5) as [V6 E6];
    destruct (assign0 c7 _ V6) as [V7 E7]; destruct (assign0 c8 _ V7) as [V8 E8]
  end.
  split; [exact V8|]. rewrite E8, E7, E6, E5, E4, E3, E2, E1, E0, !not_true. clear E8 E7 E6 E5 E4 E3 E2 E1 V8 V7 V6 V5 V4 V3 V2 V1.
  rewrite trap. rewrite trap_neg. rewrite trap_neg.
  assert (T7 : (nlt (Fin (13 / 4 + 20)) (Fin y) && ngt (Fin C) (Fin y) && nlt (line_equation (Fin (13 / 4 + 20), nneg (Fin 1)) (Fin C, nneg (Fin D)) (Fin y)) (Fin x)
    && ngt (line_equation (Fin (13 / 4 + 20), Fin 1) (Fin C, Fin D) (Fin y)) (Fin x))%bool = true <-> (93 / 4 < y < C /\ Rabs x < 1 + (y - 93 / 4) * ((D - 1) / (C - 93 / 4)))).
  { rewrite <- trap. rewrite !andb_true_iff. tauto. }
  rewrite T7. clear T7. rewrite !andb_true_iff, !Rltb_true. cbn [nneg]. rewrite !nlt_fin, !ngt_fin.
  unfold shades, shade.
  split.
  - intros H0. destruct H0 as (N8 & N7 & N6 & N5 & N4 & N3 & N2 & N1 & HA & HL). split; [exact HA|]. split; [exact HL|].
    destruct (circ_dish x y) as [Hc1 Hx]; [apply HA|]. destruct (circ_dish y x) as [Hc2 Hy]; [unfold annulus in HA; lra|].
    intros [[S|S]|[[S|S]|[[S|S]|[S|S]]]]; [apply N1; exact S|apply N2; tauto|apply N5; exact S|apply N6; lra|apply N7; exact S|apply N8; tauto|apply N3; exact S|apply N4; lra].
  - intros (HA & HL & NS). repeat match goal with |- ~ _ /\ _ => split end; try (split; assumption); intros S; apply NS; try tauto.
    + right. left. right. lra.
    + right. right. right. right. lra.
Qed.

Lemma shades_sym C D x y : (shades C D (- x) y <-> shades C D x y) /\ (shades C D x (- y) <-> shades C D x y) /\ (shades C D y x <-> shades C D x y).
Proof. unfold shades, shade. rewrite !Ropp_involutive, !Rabs_Ropp. tauto. Qed.

Lemma block_effelsberg_01 alpha x y : block_effelsberg alpha x y = 0 \/ block_effelsberg alpha x y = 1.
Proof.
  destruct (Req_dec (sin alpha) 0) as [H|H]; [rewrite block_no_shade by assumption; apply block_manual_iff|apply block_effelsberg_iff; assumption].
Qed.

Lemma block_effelsberg_sym alpha x y :
  block_effelsberg alpha (- x) y = block_effelsberg alpha x y /\
  block_effelsberg alpha x (- y) = block_effelsberg alpha x y /\
  block_effelsberg alpha y x = block_effelsberg alpha x y.
Proof.
  destruct (Req_dec (sin alpha) 0) as [H|H].
  - rewrite !block_no_shade by assumption. apply block_manual_sym.
  - destruct (annulus_sym 50 (13 / 4) x y) as (A1 & A2 & A3). destruct (legs_sym 1 (93 / 4) x y) as (L1 & L2 & L3).
    destruct (shades_sym (CC alpha) (1 + dd alpha) x y) as (S1 & S2 & S3).
    repeat split; apply two_valued; try apply block_effelsberg_01; rewrite !(proj2 (block_effelsberg_iff _ _ _ H)); tauto.
Qed.

Lemma block_effelsberg_sub alpha x y : block_manual 50 (13 / 4) 1 20 x y = 0 -> block_effelsberg alpha x y = 0.
Proof.
  intros E. destruct (Req_dec (sin alpha) 0) as [H|H]; [rewrite block_no_shade; assumption|].
  destruct (block_effelsberg_iff alpha x y H) as [[V|V] I]; [exact V|]. exfalso. apply (proj1 I) in V as (HA & HL & _).
  assert (block_manual 50 (13 / 4) 1 20 x y = 1); [|lra]. apply block_manual_iff. replace (13 / 4 + 20) with (93 / 4) by field. tauto.
Qed.

(** The far corner: on the rim, at inclination alpha from (0, 1). *)
Lemma corner alpha : 0 < alpha < PI / 2 ->
  0 < CC alpha /\ 1 + dd alpha = 1 + CC alpha * tan alpha /\ CC alpha ^ 2 + (1 + dd alpha) ^ 2 = 50 ^ 2.
Proof.
  intros Ha. assert (Hs : 0 < sin alpha) by (apply sin_gt_0; lra). assert (Hc : 0 < cos alpha) by (apply cos_gt_0; lra).
  pose proof (csc2_fin alpha ltac:(lra)) as Hp. unfold CC.
  assert (Hd : 0 < dd alpha).
  { unfold dd. apply Rmult_lt_0_compat.
    - assert (1 < sqrt (1 + 2499 * / sin alpha ^ 2)); [|lra]. rewrite <- sqrt_1 at 1. apply sqrt_lt_1_alt. lra.
    - apply Rinv_0_lt_compat. assumption. }
  split; [|split].
  - apply Rmult_lt_0_compat; [assumption|]. apply Rdiv_lt_0_compat; assumption.
  - unfold tan. field. split; lra.
  - assert (E : dd alpha ^ 2 * / sin alpha ^ 2 + 2 * dd alpha + 1 = 2500).
    { unfold dd. set (c := / sin alpha ^ 2) in *. set (q := sqrt (1 + 2499 * c)).
      assert (Eq : q * q = 1 + 2499 * c) by (apply sqrt_sqrt; lra).
      replace (((-1 + q) / c) ^ 2 * c + 2 * ((-1 + q) / c) + 1) with ((q * q - 1) / c + 1) by (field; lra).
      rewrite Eq. field. lra. }
    replace ((dd alpha * (cos alpha / sin alpha)) ^ 2) with (dd alpha ^ 2 * ((cos alpha)² * / sin alpha ^ 2)) by (unfold Rsqr; field; lra).
    rewrite cos2. unfold Rsqr.
    replace (dd alpha ^ 2 * ((1 - sin alpha * sin alpha) * / sin alpha ^ 2)) with (dd alpha ^ 2 * / sin alpha ^ 2 - dd alpha ^ 2) by (field; lra).
    lra.
Qed.

Lemma corner_unique alpha C D C' D' : 0 < alpha < PI / 2 -> 0 < C -> D = 1 + C * tan alpha -> C ^ 2 + D ^ 2 = 50 ^ 2 ->
  0 < C' -> D' = 1 + C' * tan alpha -> C' ^ 2 + D' ^ 2 = 50 ^ 2 -> C = C' /\ D = D'.
Proof.
  intros Ha HC HD E HC' HD' E'. assert (Ht : 0 < tan alpha) by (apply tan_gt_0; lra). set (t := tan alpha) in *. subst D D'.
  assert (C = C'); [|subst; auto].
  assert (F : (C - C') * ((C + C') * (1 + t ^ 2) + 2 * t) = 0) by nra.
  apply Rmult_integral in F as [F|F]; [lra|]. exfalso. assert (0 < (C + C') * (1 + t ^ 2)); [|lra]. apply Rmult_lt_0_compat; nra.
Qed.

Lemma block_effelsberg_spec alpha C D x y : 0 < alpha < PI / 2 -> 0 < C -> D = 1 + C * tan alpha -> C ^ 2 + D ^ 2 = 50 ^ 2 ->
  (block_effelsberg alpha x y = 0 \/ block_effelsberg alpha x y = 1) /\
  (block_effelsberg alpha x y = 1 <-> annulus 50 (13 / 4) x y /\ ~ legs 1 (93 / 4) x y /\ ~ shades C D x y).
Proof.
  intros Ha HC HD E. destruct (corner alpha Ha) as (K1 & K2 & K3).
  destruct (corner_unique alpha C D (CC alpha) (1 + dd alpha) Ha HC HD E K1 K2 K3) as [-> ->].
  apply block_effelsberg_iff. assert (0 < sin alpha) by (apply sin_gt_0; lra). lra.
Qed.

(** Between leg and shade there is an unblocked line x = 23.25. *)
Lemma block_gap alpha y : 0 < alpha <= PI / 4 -> Rabs y < 1 -> block_effelsberg alpha (93 / 4) y = 1.
Proof.
  intros Ha Hy. assert (Ha2 : 0 < alpha < PI / 2) by (pose proof PI_RGT_0; lra). destruct (corner alpha Ha2) as (K1 & K2 & K3).
  apply (block_effelsberg_spec alpha (CC alpha) (1 + dd alpha)); try assumption.
  apply Rabs_lt_iff in Hy.
  assert (HC : 93 / 4 < CC alpha).
  { destruct (Rlt_dec (93 / 4) (CC alpha)) as [|N]; [assumption|exfalso].
    assert (tan alpha <= 1).
    { destruct (proj2 Ha) as [Hlt|Heq]; [left; rewrite <- tan_PI4; apply tan_increasing; lra|rewrite Heq, tan_PI4; lra]. }
    assert (0 < tan alpha) by (apply tan_gt_0; lra).
    assert (1 + dd alpha <= 97 / 4) by (rewrite K2; nra). assert (0 < 1 + dd alpha) by (rewrite K2; nra). nra. }
  repeat split; unfold annulus; try nra.
  - unfold legs. rewrite !Rabs_lt_iff. lra.
  - unfold shades, shade. rewrite !Rabs_lt_iff. lra.
Qed.

(** C26. *)
Lemma sqrt_div_sq s k : 0 <= s -> k <> 0 -> (sqrt s / k) ^ 2 = s / k ^ 2.
Proof. intros Hs Hk. rewrite <- (pow2_sqrt s Hs) at 2. field. assumption. Qed.

Lemma opd_closed Fp F x y d_z : 0 < Fp -> 0 < F ->
  opd_manual Fp F x y d_z = d_z * (2 * (1 - (x ^ 2 + y ^ 2) ^ 2 / (4 * Fp * F) ^ 2) / ((1 + (x ^ 2 + y ^ 2) / (2 * Fp) ^ 2) * (1 + (x ^ 2 + y ^ 2) / (2 * F) ^ 2))).
Proof.
  intros HFp HF. unfold opd_manual. cbv zeta. assert (Hr : 0 <= x ^ 2 + y ^ 2) by nra.
  set (s := x ^ 2 + y ^ 2) in *.
  rewrite (sqrt_div_sq s (2 * Fp)) by lra.
  rewrite (sqrt_div_sq s (2 * F)) by lra.
  f_equal. field. assert (0 < Fp ^ 2) by nra. assert (0 < F ^ 2) by nra. repeat split; nra.
Qed.

Definition opd_factor (Fp F s : R) : R := (1 - s / (2 * Fp) ^ 2) / (1 + s / (2 * Fp) ^ 2) + (1 - s / (2 * F) ^ 2) / (1 + s / (2 * F) ^ 2).

Lemma opd_radial Fp F x y d_z : 0 < Fp -> 0 < F -> opd_manual Fp F x y d_z = d_z * opd_factor Fp F (x ^ 2 + y ^ 2).
Proof.
  intros HFp HF. unfold opd_manual, opd_factor. cbv zeta. assert (Hr : 0 <= x ^ 2 + y ^ 2) by nra. set (s := x ^ 2 + y ^ 2) in *.
  rewrite (sqrt_div_sq s (2 * Fp)) by lra.
  rewrite (sqrt_div_sq s (2 * F)) by lra.
  reflexivity.
Qed.

Lemma frac_mono k s s' : 0 < k -> 0 <= s < s' -> (1 - s' / k) / (1 + s' / k) < (1 - s / k) / (1 + s / k).
Proof.
  intros Hk Hs. assert (0 <= s / k) by (apply Rmult_le_pos; [lra|left; apply Rinv_0_lt_compat; assumption]).
  assert (s / k < s' / k) by (apply Rmult_lt_compat_r; [apply Rinv_0_lt_compat; assumption|lra]).
  set (a := s / k) in *. set (b := s' / k) in *.
  apply Rmult_lt_reg_r with ((1 + a) * (1 + b)); [nra|].
  replace ((1 - b) / (1 + b) * ((1 + a) * (1 + b))) with ((1 - b) * (1 + a)) by (field; lra).
  replace ((1 - a) / (1 + a) * ((1 + a) * (1 + b))) with ((1 - a) * (1 + b)) by (field; lra). nra.
Qed.

Lemma opd_factor_mono Fp F s s' : 0 < Fp -> 0 < F -> 0 <= s < s' -> opd_factor Fp F s' < opd_factor Fp F s.
Proof.
  intros HFp HF Hs. unfold opd_factor. apply Rplus_lt_compat; apply frac_mono; try assumption; nra.
Qed.

Lemma opd_factor_0 Fp F : opd_factor Fp F 0 = 2.
Proof. unfold opd_factor, Rdiv. rewrite !Rmult_0_l. field. Qed.

Lemma frac_gt k s : 0 < k -> 0 <= s -> -1 < (1 - s / k) / (1 + s / k) <= 1.
Proof.
  intros Hk Hs. assert (0 <= s / k) by (apply Rmult_le_pos; [lra|left; apply Rinv_0_lt_compat; assumption]).
  set (a := s / k) in *. assert (0 < / (1 + a)) by (apply Rinv_0_lt_compat; lra).
  replace ((1 - a) / (1 + a)) with (2 * / (1 + a) - 1) by (field; lra).
  assert (/ (1 + a) <= 1) by (rewrite <- Rinv_1 at 2; apply Rinv_le_contravar; lra). lra.
Qed.

Lemma opd_factor_bound Fp F s : 0 < Fp -> 0 < F -> 0 <= s -> -2 < opd_factor Fp F s <= 2.
Proof.
  intros HFp HF Hs. unfold opd_factor. pose proof (frac_gt ((2 * Fp) ^ 2) s ltac:(nra) Hs). pose proof (frac_gt ((2 * F) ^ 2) s ltac:(nra) Hs). lra.
Qed.

Lemma opd_api Fp F : 0 < Fp -> 0 < F -> exists f : R -> R,
  (forall x y d_z, opd_manual Fp F x y d_z = d_z * f (x ^ 2 + y ^ 2)) /\ f 0 = 2 /\
  (forall s s', 0 <= s < s' -> f s' < f s) /\ (forall s, 0 <= s -> -2 < f s <= 2) /\ f (4 * Fp * F) = 0.
Proof.
  intros HFp HF. exists (opd_factor Fp F). split; [intros; apply opd_radial; assumption|]. split; [apply opd_factor_0|].
  split; [intros; apply opd_factor_mono; assumption|]. split; [intros; apply opd_factor_bound; assumption|].
  unfold opd_factor. field. repeat split; nra.
Qed.

Lemma opd_effelsberg_manual x y d_z : opd_effelsberg x y d_z = opd_manual 30 (38739435 / 100000) x y d_z.
Proof. reflexivity. Qed.

Lemma block_effelsberg_exact alpha : 0 < alpha < PI / 2 -> exists C D, 0 < C /\ D = 1 + C * tan alpha /\ C ^ 2 + D ^ 2 = 50 ^ 2 /\
  forall x y, block_effelsberg alpha x y = 1 <-> annulus 50 (13 / 4) x y /\ ~ legs 1 (93 / 4) x y /\ ~ shades C D x y.
Proof.
  intros Ha. destruct (corner alpha Ha) as (K1 & K2 & K3). exists (CC alpha), (1 + dd alpha).
  split; [exact K1|]. split; [exact K2|]. split; [exact K3|]. intros x y. apply (block_effelsberg_spec alpha); assumption.
Qed.
