(** Rotation of maps, limits, transform and itransform. *)
From Coq Require Import List.
From Verif Require Import PyBase PyLib Num MMath MAperture MFs MAct SAct SAct2.
Import ListNotations.
Open Scope R_scope.

Lemma rect_ext {A} (d : A) r c m m' : rect r c m -> rect r c m' ->
  (forall i j, (i < r)%nat -> (j < c)%nat -> elem d m i j = elem d m' i j) -> m = m'.
Proof.
  intros [L F] [L' F'] H. apply nth_ext with (d := []) (d' := []); [congruence|].
  intros i Hi. rewrite Forall_forall in F, F'.
  apply nth_ext with (d := d) (d' := d).
  - rewrite F, F'; [reflexivity| |]; apply nth_In; congruence.
  - intros j Hj. rewrite F in Hj by (apply nth_In; assumption). apply H; [congruence|assumption].
Qed.
Lemma rect_row {A} r c (m : list (list A)) i : rect r c m -> (i < r)%nat -> length (nth i m []) = c.
Proof. intros [L F] Hi. rewrite Forall_forall in F. apply F. apply nth_In. congruence. Qed.

Lemma rect_flip_rows {A} r c (m : list (list A)) : rect r c m -> rect r c (flip_rows m).
Proof. intros [L F]. split; [unfold flip_rows; rewrite rev_length; assumption|]. apply Forall_rev. assumption. Qed.
Lemma rect_flip_cols {A} r c (m : list (list A)) : rect r c m -> rect r c (flip_cols m).
Proof.
  intros [L F]. split; [unfold flip_cols; rewrite map_length; assumption|]. unfold flip_cols. rewrite Forall_map.
  eapply Forall_impl; [|exact F]. intros row H. rewrite rev_length. assumption.
Qed.
Lemma elem_flip_rows {A} (d : A) r c m i j : rect r c m -> (i < r)%nat -> elem d (flip_rows m) i j = elem d m (r - 1 - i) j.
Proof.
  intros [L F] Hi. unfold elem, flip_rows. rewrite rev_nth by congruence. do 2 f_equal. lia.
Qed.
Lemma elem_flip_cols {A} (d : A) r c m i j : rect r c m -> (i < r)%nat -> (j < c)%nat -> elem d (flip_cols m) i j = elem d m i (c - 1 - j).
Proof.
  intros H Hi Hj. unfold elem, flip_cols. change (@nil A) with (rev (@nil A)). rewrite map_nth.
  pose proof (rect_row r c m i H Hi) as E. cbn [rev]. rewrite rev_nth by congruence. f_equal. lia.
Qed.

Lemma transpose_n_spec {A} (d : A) c : forall r m, rect r c m -> rect c r (transpose_n c m) /\
  forall i j, (i < c)%nat -> (j < r)%nat -> elem d (transpose_n c m) i j = elem d m j i.
Proof.
  induction c as [|c IH]; intros r m [L F].
  - split; [split; [reflexivity|constructor]|intros; lia].
  - cbn [transpose_n]. set (h := flat_map _ m).
    assert (Hh : length h = r /\ forall j, (j < r)%nat -> nth j h d = elem d m j 0).
    { subst h. revert r L. induction F as [|row m Hrow F IHm]; intros r L; cbn in L; subst r.
      - split; [reflexivity|intros; lia].
      - destruct row as [|x row]; [discriminate|]. cbn. destruct (IHm _ eq_refl) as [E1 E2]. split; [congruence|].
        intros [|j] Hj; [reflexivity|]. rewrite E2 by lia. reflexivity. }
    destruct Hh as [Hl Hh].
    assert (R' : rect r c (map (@tl A) m)).
    { split; [rewrite map_length; assumption|]. rewrite Forall_map. eapply Forall_impl; [|exact F].
      intros row Hrow. destruct row; cbn in *; congruence. }
    destruct (IH r _ R') as [[L1 F1] E]. split.
    + split; [cbn; congruence|]. constructor; assumption.
    + intros [|i] j Hi Hj; [apply Hh; assumption|].
      change (elem d (h :: transpose_n c (map (tl (A:=A)) m)) (S i) j) with (elem d (transpose_n c (map (tl (A:=A)) m)) i j).
      rewrite E by lia. unfold elem. change (@nil A) with (tl (@nil A)) at 1. rewrite map_nth.
      destruct (nth j m []) as [|x t]; [destruct i; reflexivity|reflexivity].
Qed.
Lemma ncols_rect {A} r c (m : list (list A)) : rect r c m -> (0 < r)%nat -> ncols m = c.
Proof. intros [L F] H. destruct m as [|row m]; cbn in L; [lia|]. inversion F; subst. reflexivity. Qed.
Lemma rect_transpose {A} r c (m : list (list A)) : rect r c m -> (0 < r)%nat -> rect c r (transpose m).
Proof.
  intros H Hr. unfold transpose. rewrite (ncols_rect r c) by assumption.
  destruct (nth 0 m []) as [|d t] eqn:E.
  - pose proof (rect_row r c m 0 H Hr) as L. rewrite E in L. cbn in L. subst c. split; [reflexivity|constructor].
  - apply (transpose_n_spec d c r m H).
Qed.
Lemma elem_transpose {A} (d : A) r c m i j : rect r c m -> (i < c)%nat -> (j < r)%nat -> elem d (transpose m) i j = elem d m j i.
Proof.
  intros H Hi Hj. unfold transpose. rewrite (ncols_rect r c) by (assumption || lia).
  apply (transpose_n_spec d c r m H); assumption.
Qed.

(** rot90, one quarter case at a time. *)
Lemma mod4_cases k : (k mod 4 = 0 \/ k mod 4 = 1 \/ k mod 4 = 2 \/ k mod 4 = 3)%Z.
Proof. pose proof (Z.mod_pos_bound k 4). lia. Qed.
Lemma mod4_even k : Z.even k = Z.even (k mod 4).
Proof. rewrite (Z.div_mod k 4) at 1 by lia. rewrite Z.even_add, Z.even_mul. cbn. destruct (Z.even (k mod 4)); reflexivity. Qed.

Lemma rot90_spec {A} (d : A) k r c m : rect r c m -> (0 < r)%nat -> (0 < c)%nat ->
  let '(r', c') := turned_shape k r c in
  rect r' c' (rot90 k m) /\
  forall i j, (i < r')%nat -> (j < c')%nat -> elem d (rot90 k m) i j = let '(i', j') := turned_from k r c i j in elem d m i' j'.
Proof.
  intros H Hr Hc. unfold turned_shape, turned_from, rot90. rewrite mod4_even.
  destruct (mod4_cases k) as [E|[E|[E|E]]]; rewrite E; cbn [Z.even].
  - split; [assumption|]. reflexivity.
  - pose proof (rect_flip_cols r c m H) as H1. split; [apply rect_transpose; assumption|].
    intros i j Hi Hj. rewrite (elem_transpose d r c) by assumption. rewrite (elem_flip_cols d r c) by assumption. reflexivity.
  - pose proof (rect_flip_rows r c m H) as H1. split; [apply rect_flip_cols; assumption|].
    intros i j Hi Hj. rewrite (elem_flip_cols d r c) by assumption. rewrite (elem_flip_rows d r c) by assumption. reflexivity.
  - pose proof (rect_transpose r c m H Hr) as H1. split; [apply rect_flip_cols; assumption|].
    intros i j Hi Hj. rewrite (elem_flip_cols d c r) by assumption. rewrite (elem_transpose d r c) by (assumption || lia). reflexivity.
Qed.

Lemma neg_mod4 k : ((- k) mod 4 = match k mod 4 with 0 => 0 | 1 => 3 | 2 => 2 | _ => 1 end)%Z.
Proof.
  destruct (mod4_cases k) as [E|[E|[E|E]]]; rewrite E;
   pose proof (Z.div_mod k 4 ltac:(lia)) as Hk; rewrite E in Hk; symmetry.
  - apply (Z.mod_unique _ _ (- (k / 4))); lia.
  - apply (Z.mod_unique _ _ (- (k / 4) - 1)); lia.
  - apply (Z.mod_unique _ _ (- (k / 4) - 1)); lia.
  - apply (Z.mod_unique _ _ (- (k / 4) - 1)); lia.
Qed.

Lemma rot90_back {A} (d : A) k r c (m : list (list A)) : rect r c m -> (0 < r)%nat -> (0 < c)%nat -> rot90 (- k) (rot90 k m) = m.
Proof.
  intros H Hr Hc. pose proof (rot90_spec d k r c m H Hr Hc) as S1.
  destruct (turned_shape k r c) as [r1 c1] eqn:E1. destruct S1 as [R1 S1].
  assert (P1 : (0 < r1)%nat /\ (0 < c1)%nat).
  { unfold turned_shape in E1. destruct (Z.even k); inversion E1; subst; auto. }
  pose proof (rot90_spec d (- k) r1 c1 _ R1 (proj1 P1) (proj2 P1)) as S2.
  assert (E2 : turned_shape (- k) r1 c1 = (r, c)).
  { unfold turned_shape in *. rewrite Z.even_opp. destruct (Z.even k); inversion E1; subst; reflexivity. }
  rewrite E2 in S2. destruct S2 as [R2 S2].
  apply (rect_ext d r c); [assumption|assumption|].
  intros i j Hi Hj. rewrite S2 by assumption.
  unfold turned_shape in E1. rewrite mod4_even in E1. unfold turned_from. rewrite neg_mod4.
  unfold turned_from in S1.
  destruct (mod4_cases k) as [E|[E|[E|E]]]; rewrite E in *; cbn [Z.even] in E1; inversion E1; subst r1 c1.
  - rewrite S1 by assumption. reflexivity.
  - rewrite S1 by lia. f_equal; lia.
  - rewrite S1 by lia. f_equal; lia.
  - rewrite S1 by lia. f_equal; lia.
Qed.

Lemma rect_map2d {A B} (f : A -> B) r c m : rect r c m -> rect r c (map2d f m).
Proof.
  intros [L F]. split; [unfold map2d; rewrite map_length; assumption|]. unfold map2d. rewrite Forall_map.
  eapply Forall_impl; [|exact F]. intros row H. rewrite map_length. assumption.
Qed.
Lemma elem_map2d {A B} (f : A -> B) a m i j : elem (f a) (map2d f m) i j = f (elem a m i j).
Proof. unfold elem, map2d. change (@nil B) with (map f (@nil A)). rewrite map_nth. apply map_nth. Qed.
Lemma elem_map2d' {A B} (f : A -> B) a b r c m i j : rect r c m -> (i < r)%nat -> (j < c)%nat -> elem b (map2d f m) i j = f (elem a m i j).
Proof.
  intros H Hi Hj. transitivity (elem (f a) (map2d f m) i j); [|apply elem_map2d]. unfold elem. apply nth_indep.
  rewrite (rect_row r c) by (try apply rect_map2d; assumption). assumption.
Qed.
Lemma map2d_map2d {A B C} (g : B -> C) (f : A -> B) m : map2d g (map2d f m) = map2d (fun x => g (f x)) m.
Proof. unfold map2d. rewrite map_map. apply map_ext. intros. apply map_map. Qed.
Lemma map2d_ext_in {A B} (f g : A -> B) m : (forall row, In row m -> forall x, In x row -> f x = g x) -> map2d f m = map2d g m.
Proof. intros H. unfold map2d. apply map_ext_in. intros row Hr. apply map_ext_in. intros x Hx. eapply H; eauto. Qed.
Lemma map2d_id {A} (m : list (list A)) : map2d (fun x => x) m = m.
Proof. unfold map2d. rewrite <- (map_id m) at 2. apply map_ext. intros. apply map_id. Qed.

(** rot90 commutes with elementwise functions. *)
Lemma transpose_n_map2d {A B} (f : A -> B) c : forall m, transpose_n c (map2d f m) = map2d f (transpose_n c m).
Proof.
  induction c as [|c IH]; intros m; [reflexivity|]. cbn [transpose_n]. unfold map2d at 3. cbn [map]. f_equal.
  - unfold map2d. induction m as [|row m IHm]; cbn; [reflexivity|]. rewrite map_app, <- IHm. destruct row; reflexivity.
  - fold (map2d f (transpose_n c (map (tl (A:=A)) m))). rewrite <- IH. f_equal. unfold map2d. rewrite !map_map. apply map_ext. intros row; destruct row; reflexivity.
Qed.
Lemma transpose_map2d {A B} (f : A -> B) m : transpose (map2d f m) = map2d f (transpose m).
Proof.
  unfold transpose. rewrite <- transpose_n_map2d. f_equal. unfold map2d. destruct m; cbn; [reflexivity|]. apply map_length.
Qed.
Lemma flip_cols_map2d {A B} (f : A -> B) m : flip_cols (map2d f m) = map2d f (flip_cols m).
Proof. unfold flip_cols, map2d. rewrite !map_map. apply map_ext. intros. symmetry. apply map_rev. Qed.
Lemma flip_rows_map2d {A B} (f : A -> B) m : flip_rows (map2d f m) = map2d f (flip_rows m).
Proof. unfold flip_rows, map2d. symmetry. apply map_rev. Qed.
Lemma rot90_map2d {A B} (f : A -> B) k (m : list (list A)) : rot90 k (map2d f m) = map2d f (rot90 k m).
Proof.
  unfold rot90. destruct (mod4_cases k) as [E|[E|[E|E]]]; rewrite E; [reflexivity| | |].
  - rewrite flip_cols_map2d. apply transpose_map2d.
  - rewrite flip_rows_map2d. apply flip_cols_map2d.
  - rewrite transpose_map2d. apply flip_cols_map2d.
Qed.

(** Limits and the factor. *)
Lemma limit_between lo hi x : lo <= hi -> limit lo hi x = between lo hi x.
Proof.
  intros H. unfold limit, between, ngt. destruct x as [x| | |]; cbn [nlt]; try reflexivity.
  - unfold Rltb. destruct (Rlt_dec hi x); cbn [nlt]; unfold Rltb.
    + destruct (Rlt_dec hi lo); [lra|]. rewrite Rmin_left by lra. rewrite Rmax_right by lra. reflexivity.
    + rewrite Rmin_right by lra. destruct (Rlt_dec x lo); [rewrite Rmax_left by lra|rewrite Rmax_right by lra]; reflexivity.
  - unfold Rltb. destruct (Rlt_dec hi lo); [lra|reflexivity].
Qed.
Lemma between_bounds lo hi x : lo <= hi -> match between lo hi x with Fin t => lo <= t <= hi | NaN => x = NaN | _ => False end.
Proof.
  intros H. destruct x as [t| | |]; cbn; try lra; try reflexivity.
  split; [apply Rmax_l|]. apply Rmax_lub; [assumption|]. apply Rmin_l.
Qed.
Lemma between_inside lo hi t : lo <= t <= hi -> between lo hi (Fin t) = Fin t.
Proof. intros H. cbn. rewrite Rmin_right by lra. rewrite Rmax_right by lra. reflexivity. Qed.

Lemma scale_back t x : t <> 0 -> ndiv (nmul (Fin t) x) (Fin t) = x.
Proof.
  intros H. destruct x as [x| | |]; cbn.
  - destruct (Req_EM_T t 0); [contradiction|]. f_equal. field. assumption.
  - unfold inf_sign. destruct (Rlt_dec 0 t); cbn; [destruct (Rle_dec 0 t); [reflexivity|lra]|].
    destruct (Rlt_dec t 0); cbn; [destruct (Rle_dec 0 t); [lra|reflexivity]|lra].
  - unfold inf_sign. destruct (Rlt_dec 0 t); cbn; [destruct (Rle_dec 0 t); [reflexivity|lra]|].
    destruct (Rlt_dec t 0); cbn; [destruct (Rle_dec 0 t); [lra|reflexivity]|lra].
  - reflexivity.
Qed.

Lemma tfactor_eq o : ac_tfactor o = radians_per_um o.
Proof. unfold ac_tfactor, radians_per_um, ac_wavel, speed_of_light. f_equal. ring. Qed.
Lemma tfactor_nonzero o : usable_act o -> ac_tfactor o <> 0.
Proof.
  intros (Hf & Hs & Hn & _). unfold ac_tfactor, ac_wavel, speed_of_light.
  assert (0 < 299792458 / ac_frequency o * 1000000). { apply Rmult_lt_0_compat; [|lra]. apply Rdiv_lt_0_compat; lra. }
  assert (ac_sign o * 2 * ac_n_reflections o * PI <> 0).
  { pose proof PI_RGT_0. destruct Hs as [-> | ->]; apply Rmult_integral_contrapositive; split; nra. }
  intros E. apply H0. apply (Rmult_eq_reg_r (/ (299792458 / ac_frequency o * 1000000))); [|apply Rinv_neq_0_compat; lra].
  rewrite Rmult_0_l. exact E.
Qed.


Lemma there_and_back o a : usable_act o -> each_map sized a ->
  itransform o (transform o a) = on_maps (map2d (between (ac_min o) (ac_max o))) a.
Proof.
  intros Ho Ha. pose proof (tfactor_nonzero o Ho) as Ht. destruct Ho as (_ & _ & _ & Hlim).
  assert (E : forall m, sized m -> map2d (limit (ac_min o) (ac_max o))
    (rot90 (- ac_nrot o) (map2d (fun p => ndiv p (Fin (ac_tfactor o))) (map2d (nmul (Fin (ac_tfactor o))) (rot90 (ac_nrot o) m))))
    = map2d (between (ac_min o) (ac_max o)) m).
  { intros m (r & c & Hm & Hr & Hc). rewrite map2d_map2d.
    rewrite (map2d_ext_in (fun x => ndiv (nmul (Fin (ac_tfactor o)) x) (Fin (ac_tfactor o))) (fun x => x)) by (intros; apply scale_back; assumption). rewrite map2d_id.
    rewrite (rot90_back NaN (ac_nrot o) r c) by assumption.
    apply map2d_ext_in. intros. apply limit_between. assumption. }
  destruct a as [m|l]; unfold itransform, transform, on_maps; cbn in Ha.
  - f_equal. apply E. assumption.
  - f_equal. rewrite map_map. apply map_ext_in. intros m Hm. apply E. rewrite Forall_forall in Ha. auto.
Qed.

Lemma back_and_there o a : usable_act o -> each_map sized a ->
  each_map (Forall (Forall (within_limits o))) a -> transform o (itransform o a) = a.
Proof.
  intros Ho Ha Hw. pose proof (tfactor_nonzero o Ho) as Ht. destruct Ho as (_ & _ & _ & Hlim).
  assert (E : forall m, sized m -> Forall (Forall (within_limits o)) m ->
    map2d (nmul (Fin (ac_tfactor o))) (rot90 (ac_nrot o) (map2d (limit (ac_min o) (ac_max o))
    (rot90 (- ac_nrot o) (map2d (fun p => ndiv p (Fin (ac_tfactor o))) m)))) = m).
  { intros m (r & c & Hm & Hr & Hc) HF. rewrite !rot90_map2d, !map2d_map2d.
    replace (rot90 (ac_nrot o) (rot90 (- ac_nrot o) m)) with m.
    2: { symmetry. rewrite <- (Z.opp_involutive (ac_nrot o)) at 1. apply (rot90_back NaN _ r c); assumption. }
    rewrite <- (map2d_id m) at 2. apply map2d_ext_in. intros row Hrow x Hx.
    rewrite Forall_forall in HF. pose proof (HF row Hrow) as HF'. rewrite Forall_forall in HF'.
    destruct (HF' x Hx) as [-> | (t & -> & Hb)]; [reflexivity|]. rewrite <- tfactor_eq in Hb.
    cbn [ndiv]. destruct (Req_EM_T (ac_tfactor o) 0); [contradiction|].
    rewrite limit_between, between_inside by assumption. cbn. f_equal. field. assumption. }
  destruct a as [m|l]; unfold itransform, transform, on_maps; cbn in Ha, Hw.
  - f_equal. apply E; assumption.
  - f_equal. rewrite map_map. rewrite <- (map_id l) at 2. apply map_ext_in. intros m Hm. rewrite Forall_forall in Ha, Hw. apply E; auto.
Qed.

(** What transform does to one map, pixel by pixel. *)
Lemma transform_pixel o r c m : rect r c m -> (0 < r)%nat -> (0 < c)%nat ->
  exists p, transform o (Map2 m) = Map2 p /\ (forall l, In m l -> exists ps, transform o (Map3 l) = Map3 ps /\ In p ps) /\
  let '(r', c') := turned_shape (ac_nrot o) r c in rect r' c' p /\
  forall i j, (i < r')%nat -> (j < c')%nat ->
    elem NaN p i j = nmul (Fin (radians_per_um o)) (let '(i', j') := turned_from (ac_nrot o) r c i j in elem NaN m i' j').
Proof.
  intros H Hr Hc. eexists. split; [reflexivity|]. split.
  - intros l Hl. eexists. split; [reflexivity|]. apply (in_map (fun m => map2d (nmul (Fin (ac_tfactor o))) (rot90 (ac_nrot o) m))). assumption.
  - pose proof (rot90_spec NaN (ac_nrot o) r c m H Hr Hc) as S1. destruct (turned_shape (ac_nrot o) r c) as [r' c']. destruct S1 as [R1 S1].
    split; [apply rect_map2d; assumption|]. intros i j Hi Hj.
    rewrite (elem_map2d' _ NaN NaN r' c') by assumption. rewrite S1 by assumption. rewrite <- tfactor_eq. reflexivity.
Qed.

Lemma map3_nth o l a : (a < length l)%nat -> exists ps, transform o (Map3 l) = Map3 ps /\ length ps = length l /\
  transform o (Map2 (nth a l [])) = Map2 (nth a ps []).
Proof.
  intros Ha. eexists. split; [reflexivity|]. split; [apply map_length|]. cbn. f_equal.
  set (f := fun m => map2d _ (rot90 _ m)). rewrite (nth_indep (map f l) [] (f [])) by (rewrite map_length; assumption). rewrite map_nth. reflexivity.
Qed.

(** Limits of everything itransform returns. *)
Lemma itransform_limits o a : usable_act o ->
  each_map (Forall (Forall (fun x => x = NaN \/ exists t, x = Fin t /\ ac_min o <= t <= ac_max o))) (itransform o a).
Proof.
  intros (_ & _ & _ & Hlim).
  assert (E : forall m : list (list num), Forall (Forall (fun x => x = NaN \/ exists t, x = Fin t /\ ac_min o <= t <= ac_max o)) (map2d (limit (ac_min o) (ac_max o)) m)).
  { intros m. unfold map2d. rewrite Forall_map, Forall_forall. intros row _. rewrite Forall_map, Forall_forall. intros x _.
    rewrite limit_between by assumption. pose proof (between_bounds _ _ x Hlim) as B.
    destruct (between (ac_min o) (ac_max o) x) as [t| | |]; [right; exists t; auto|contradiction|contradiction|left; reflexivity]. }
  destruct a as [m|l]; cbn; [apply E|]. rewrite Forall_map, Forall_forall. intros m _. apply E.
Qed.
(** NaN comes only from NaN. *)
Lemma itransform_pixel o r c m : usable_act o -> rect r c m -> (0 < r)%nat -> (0 < c)%nat ->
  exists d, itransform o (Map2 m) = Map2 d /\
  let '(r', c') := turned_shape (- ac_nrot o) r c in rect r' c' d /\
  forall i j, (i < r')%nat -> (j < c')%nat ->
    elem NaN d i j = between (ac_min o) (ac_max o)
       (ndiv (let '(i', j') := turned_from (- ac_nrot o) r c i j in elem NaN m i' j') (Fin (radians_per_um o))).
Proof.
  intros (_ & _ & _ & Hlim) H Hr Hc. eexists. split; [reflexivity|].
  pose proof (rot90_spec NaN (- ac_nrot o) r c m H Hr Hc) as S1. destruct (turned_shape (- ac_nrot o) r c) as [r' c']. destruct S1 as [R1 S1].
  rewrite rot90_map2d, map2d_map2d. split; [apply rect_map2d; assumption|]. intros i j Hi Hj.
  rewrite (elem_map2d' _ NaN NaN r' c') by assumption. rewrite limit_between by assumption. rewrite S1 by assumption. rewrite <- tfactor_eq. reflexivity.
Qed.
