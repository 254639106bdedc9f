(** Proofs about the figures of plot_routines.py: plot_variance. *)
From Coq Require Import String Ascii List Lia Lra.
From Flocq Require Import Core.Raux.
From Verif Require Import PyBase Num MZernike MMath MAperture MRad MCore MFs MAct MAux MOut MPlot SZernike SAct SPlot PEnum PNorm PAct PFit5.
From Coquelicot Require Import Complex.
Import ListNotations.
Open Scope R_scope.
Open Scope string_scope.
Open Scope list_scope.

Lemma label_names_length n : length (label_names n) = (5 + n_coeff n)%nat.
Proof. unfold label_names. rewrite app_length, map_length, ln_list_length. reflexivity. Qed.

Lemma coeff_pos_eq i j : coeff_pos i j = Z.to_nat ((Z.of_nat i * (Z.of_nat i + 2) + j) / 2).
Proof. reflexivity. Qed.

Lemma label_names_nth n q : (q < 5 + n_coeff n)%nat -> names_parameter q (nth q (label_names n) "").
Proof.
  intros Hq. destruct (Nat.lt_ge_cases q 5) as [H|H].
  - unfold names_parameter, label_names.
    destruct q as [|[|[|[|[|q]]]]]; cbn [nth app]; tauto || lia.
  - right; right; right; right; right. unfold label_names. rewrite app_nth2 by (simpl; lia).
    set (k := (q - length _)%nat). assert (Hk : (k < length (ln_list n))%nat) by (rewrite ln_list_length; unfold k; simpl; lia).
    rewrite ln_list_swap, map_length in Hk.
    destruct (nth_error (nl_list (Z.of_nat n)) k) as [(i, j)|] eqn:E; [|apply nth_error_None in E; lia].
    assert (A : (i <= Z.of_nat n)%Z /\ admissible i j) by (apply nl_list_in; eapply nth_error_In; exact E).
    destruct A as [A1 A2]. assert (A0 : (0 <= i)%Z) by (destruct A2; lia).
    assert (P : k = coeff_pos (Z.to_nat i) j).
    { rewrite coeff_pos_eq, Z2Nat.id by lia. pose proof (nl_list_nth _ _ _ A1 A2) as N.
      apply (proj1 (NoDup_nth_error _) (nl_list_NoDup (Z.of_nat n)) k _ Hk). congruence. }
    exists (Z.to_nat i), j. rewrite Z2Nat.id by lia. split; [exact A2|]. split; [rewrite <- P; unfold k; simpl; lia|].
    apply nth_error_nth. rewrite ln_list_swap, map_map.
    apply (map_nth_error (fun x : Z * Z => (let '(L, N) := let '(i, j) := x in (j, i) in "$K_{" ^^ decZ N ^^ "\," ^^ decZ L ^^ "}$"))) in E.
    exact E.
Qed.

(** ** Small facts about lists *)
Lemma mapM_ok {A B} (f : A -> res B) (g : A -> B) l : (forall x, In x l -> f x = Ok (g x)) -> mapM f l = Ok (map g l).
Proof.
  induction l as [|x t IH]; intros H; [reflexivity|]. cbn [mapM map]. rewrite (H x) by (left; reflexivity).
  cbn [bind]. rewrite IH by (intros y Hy; apply H; right; exact Hy). reflexivity.
Qed.

Lemma map2_nth_error {A B C} (f : A -> B -> C) l1 : forall l2 i, nth_error (map2 f l1 l2) i =
  match nth_error l1 i, nth_error l2 i with Some a, Some b => Some (f a b) | _, _ => None end.
Proof.
  induction l1 as [|x t IH]; intros [|y l2] [|i]; cbn [map2 nth_error]; try reflexivity; auto.
  destruct (nth_error t i); reflexivity.
Qed.
Lemma map2_length_eq {A B C} (f : A -> B -> C) l1 : forall l2, length l1 = length l2 -> length (map2 f l1 l2) = length l1.
Proof. induction l1 as [|x t IH]; intros [|y l2] H; cbn in *; try discriminate; auto. Qed.

Lemma nth_error_seq a n i : (i < n)%nat -> nth_error (seq a n) i = Some (a + i)%nat.
Proof. intros H. rewrite (nth_error_nth' _ 0%nat) by (rewrite seq_length; exact H). now rewrite seq_nth. Qed.
Lemma nth_error_map_seq {A} (f : nat -> A) n i : (i < n)%nat -> nth_error (map f (seq 0 n)) i = Some (f i).
Proof. intros H. apply map_nth_error. now rewrite nth_error_seq. Qed.

Lemma nth_error_combine {A B} (l1 : list A) : forall (l2 : list B) i, nth_error (combine l1 l2) i =
  match nth_error l1 i, nth_error l2 i with Some a, Some b => Some (a, b) | _, _ => None end.
Proof.
  induction l1 as [|x t IH]; intros [|y l2] [|i]; cbn [combine nth_error]; try reflexivity; auto.
  destruct (nth_error t i); reflexivity.
Qed.

Lemma rect_row {A} r c (m : list (list A)) i : rect r c m -> (i < r)%nat -> nth_error m i = Some (nth i m []) /\ length (nth i m []) = c.
Proof.
  intros [H1 H2] H. split; [apply nth_error_nth'; lia|]. rewrite Forall_forall in H2. apply H2, nth_In. lia.
Qed.
Lemma rect_elem {A} r c (m : list (list A)) d i j : rect r c m -> (i < r)%nat -> (j < c)%nat -> nth_error (nth i m []) j = Some (elem d m i j).
Proof. intros H Hi Hj. destruct (rect_row _ _ _ i H Hi) as [_ L]. apply nth_error_nth'. lia. Qed.

(** Matrix element of the masked array. *)
Definition masked_of (p : nat) (k : Z) (m : list (list num)) : list (list (option num)) :=
  map2 (map2 (fun (b : bool) a => if b then None else Some a)) (tri p k) m.

Lemma masked_rect p k m : rect p p m -> rect p p (masked_of p k m).
Proof.
  intros [L F]. split.
  - unfold masked_of. rewrite map2_length_eq; unfold tri; rewrite map_length, seq_length; auto.
  - apply Forall_forall. intros row Hr. apply In_nth_error in Hr. destruct Hr as [i Hi].
    unfold masked_of in Hi. rewrite map2_nth_error in Hi.
    destruct (nth_error (tri p k) i) as [a|] eqn:Ea; [|discriminate]. destruct (nth_error m i) as [b|] eqn:Eb; [|discriminate].
    inversion Hi; subst row. assert (Hip : (i < p)%nat) by (rewrite <- L; apply nth_error_Some; congruence).
    unfold tri in Ea. rewrite nth_error_map_seq in Ea by exact Hip. inversion Ea; subst a.
    rewrite Forall_forall in F. rewrite map2_length_eq; rewrite map_length, seq_length; auto. symmetry. apply F. eapply nth_error_In; exact Eb.
Qed.
Lemma masked_elem p k m i j : rect p p m -> (i < p)%nat -> (j < p)%nat ->
  elem None (masked_of p k m) i j = if Z.leb (Z.of_nat j) (Z.of_nat i + k) then None else Some (elem NaN m i j).
Proof.
  intros H Hi Hj. unfold elem. apply nth_error_nth. unfold masked_of.
  erewrite (nth_error_nth (map2 _ _ _)).
  2:{ rewrite map2_nth_error. unfold tri. rewrite nth_error_map_seq by exact Hi. destruct (rect_row _ _ _ i H Hi) as [E _]. rewrite E. reflexivity. }
  rewrite map2_nth_error. rewrite nth_error_map_seq by exact Hj. rewrite (rect_elem p p m NaN) by assumption. reflexivity.
Qed.

(** One cell of an image of unit cells. *)
Lemma unit_cell a c : (a : nat) <> c -> ~ (INR c < INR a + 1 / 2 < INR (S c)).
Proof.
  intros H [H1 H2]. rewrite S_INR in H2. destruct (Nat.lt_trichotomy a c) as [L|[L|L]]; [|congruence|].
  - apply le_INR in L. rewrite S_INR in L. lra.
  - apply le_INR in L. rewrite S_INR in L. lra.
Qed.

Lemma shows_unit im p a b v : rect p p (im_data im) -> (0 < p)%nat -> im_x0 im = 0 -> im_x1 im = INR p -> im_y0 im = 0 -> im_y1 im = INR p ->
  im_lower im = false -> (a < p)%nat -> (b < p)%nat ->
  (shows im (INR a + 1 / 2) (INR b + 1 / 2) v <-> v = elem None (im_data im) (p - 1 - b) a).
Proof.
  intros H Hp X0 X1 Y0 Y1 O Ha Hb. unfold shows. rewrite X0, X1, Y0, Y1, O.
  assert (P0 : INR p <> 0) by (apply not_0_INR; lia).
  rewrite (ncols_rect p p) by assumption. destruct H as [L F]. rewrite L.
  replace ((INR p - 0) / INR p) with 1 by (field; exact P0).
  split.
  - intros (r & c & Hr & Hc & E & Bx & By). rewrite !Rplus_0_l, !Rmult_1_r in *.
    assert (c = a). { destruct (Nat.eq_dec a c) as [e|n]; [auto|]. exfalso. exact (unit_cell a c n Bx). }
    assert (b = p - 1 - r)%nat. { destruct (Nat.eq_dec b (p - 1 - r)) as [e|n]; [auto|]. exfalso. exact (unit_cell b _ n By). }
    subst c b. replace (p - 1 - (p - 1 - r))%nat with r by lia. symmetry. unfold elem. apply nth_error_nth. exact E.
  - intros ->. exists (p - 1 - b)%nat, a. split; [lia|]. split; [lia|].
    split; [apply (rect_elem p p); [split; assumption|lia|lia]|].
    rewrite !Rplus_0_l, !Rmult_1_r. replace (p - 1 - (p - 1 - b))%nat with b by lia. rewrite !S_INR. lra.
Qed.

Lemma py_int_INR i : py_int (Fin (INR i)) = Ok (Z.of_nat i).
Proof. unfold py_int. rewrite INR_IZR_INZ, Ztrunc_IZR. reflexivity. Qed.

Lemma np_min_ok l : l <> [] -> exists a, np_min l = Ok a.
Proof. destruct l; [congruence|]. intros _. eexists; reflexivity. Qed.
Lemma np_max_ok l : l <> [] -> exists a, np_max l = Ok a.
Proof. destruct l; [congruence|]. intros _. eexists; reflexivity. Qed.

Lemma concat_nonempty {A} p (m : list (list A)) : rect p p m -> (0 < p)%nat -> concat m <> [].
Proof.
  intros [L F] Hp. destruct m as [|[|x r] t]; [simpl in L; lia| |discriminate].
  inversion F as [|? ? H1 H2]. simpl in H1. lia.
Qed.

Lemma combine_pos_nth (p : nat) (l : list string) a : length l = p -> (a < p)%nat ->
  nth_error (combine (map (fun i => INR i + 1 / 2) (seq 0 p)) (l ++ repeat "" p)) a = Some (INR a + 1 / 2, nth a l "").
Proof.
  intros L H. rewrite nth_error_combine, nth_error_map_seq by exact H. rewrite nth_error_app1 by lia.
  rewrite (nth_error_nth' l "") by lia. reflexivity.
Qed.

Definition used_labels (n : nat) (idx : list nat) : list string := map (fun q => nth q (label_names n) "") idx.

Lemma labels_of n idx : Forall (fun q => (q < 5 + n_coeff n)%nat) idx ->
  mapM py_int (map Fin (map INR idx)) = Ok (map Z.of_nat idx) /\
  mapM (fun q => bind (np_index (length (label_names n)) q) (fun i => py_get (label_names n) i)) (map Z.of_nat idx) = Ok (used_labels n idx).
Proof.
  intros F. split.
  - rewrite map_map. induction idx as [|i t IH]; [reflexivity|]. inversion F; subst. cbn [map mapM]. rewrite py_int_INR. cbn [bind].
    rewrite IH by assumption. reflexivity.
  - unfold used_labels. induction idx as [|i t IH]; [reflexivity|]. inversion F; subst. cbn [map mapM].
    unfold np_index at 1. rewrite label_names_length.
    replace (Z.leb 0 (Z.of_nat i) && Z.ltb (Z.of_nat i) (Z.of_nat (5 + n_coeff n)))%bool with true
      by (symmetry; apply andb_true_iff; split; [apply Z.leb_le|apply Z.ltb_lt]; lia).
    cbn [bind]. rewrite Nat2Z.id. unfold py_get at 1. rewrite (nth_error_nth' _ "") by (rewrite label_names_length; lia). cbn [bind].
    rewrite <- label_names_length. rewrite IH by assumption. reflexivity.
Qed.

(** plot_variance with diag=True. *)
Lemma plot_variance_diag strict n idx m p cb title : (0 < p)%nat -> length idx = p -> rect p p m ->
  Forall (fun q => (q < 5 + n_coeff n)%nat) idx ->
  exists vmin vmax pn, np_min (concat m) = Ok vmin /\ np_max (concat m) = Ok vmax /\
    plot_variance strict (map Fin (map INR idx) :: m) n true cb title = Ok {| fg_size := (6.4, 4.8); fg_title := ""; fg_panels := [pn] |} /\
    pn_title pn = title /\ pn_bar pn = cb /\ im_scale (pn_image pn) = Some (vmin, vmax) /\
    length (pn_xticks pn) = p /\ length (pn_yticks pn) = p /\
    (forall a, (a < p)%nat -> nth_error (pn_xticks pn) a = Some (INR a + 1 / 2, nth (nth a idx 0%nat) (label_names n) "")) /\
    (forall b, (b < p)%nat -> nth_error (pn_yticks pn) b = Some (INR b + 1 / 2, nth (nth (p - 1 - b) idx 0%nat) (label_names n) "")) /\
    (forall a b v, (a < p)%nat -> (b < p)%nat ->
       (shows (pn_image pn) (INR a + 1 / 2) (INR b + 1 / 2) v <-> v = if Nat.leb a (p - 1 - b) then Some (elem NaN m a (p - 1 - b)) else None)).
Proof.
  intros Hp Hl Hm F. destruct (labels_of n idx F) as [L1 L2].
  pose proof (concat_nonempty p m Hm Hp) as NE.
  destruct (np_min_ok _ NE) as [vmin Emin]. destruct (np_max_ok _ NE) as [vmax Emax].
  assert (Lm : length m = p) by apply Hm.
  unfold plot_variance. unfold py_get at 1. cbn [nth_error bind skipn].
  rewrite L1. cbn [bind]. rewrite L2. cbn [bind].
  rewrite !map_length, Hl, Lm, Nat.eqb_refl. cbn [negb]. rewrite Emin, Emax. cbn [bind].
  assert (LL : length (used_labels n idx) = p) by (unfold used_labels; rewrite map_length; exact Hl).
  unfold ticks. rewrite rev_length, LL, map_length, seq_length, Nat.eqb_refl, andb_false_r. cbn [bind].
  eexists vmin, vmax, _. split; [reflexivity|]. split; [reflexivity|]. split; [reflexivity|]. cbn [pn_title pn_bar pn_image im_scale pn_xticks pn_yticks].
  split; [reflexivity|]. split; [reflexivity|]. split; [reflexivity|].
  split; [rewrite combine_length, app_length, repeat_length, map_length, seq_length; lia|].
  split; [rewrite combine_length, app_length, repeat_length, map_length, seq_length; lia|].
  split; [|split].
  - intros a Ha. rewrite combine_pos_nth by (auto; lia). do 2 f_equal. unfold used_labels.
    apply nth_error_nth. erewrite map_nth_error; [reflexivity|]. apply nth_error_nth'. lia.
  - intros b Hb. rewrite combine_pos_nth by (rewrite ?rev_length; auto; lia). do 2 f_equal.
    rewrite rev_nth by lia. rewrite LL. unfold used_labels.
    replace (p - S b)%nat with (p - 1 - b)%nat by lia.
    apply nth_error_nth. erewrite map_nth_error; [reflexivity|]. apply nth_error_nth'. lia.
  - intros a b v Ha Hb. pose proof (masked_rect p (-1) m Hm) as MR.
    destruct (transpose_n_spec None p p _ MR) as [TR TE].
    rewrite (shows_unit _ p); cbn [im_data im_x0 im_x1 im_y0 im_y1 im_lower]; auto.
    fold (masked_of p (-1) m). rewrite TE by lia. rewrite masked_elem by (auto; lia).
    destruct (Nat.leb_spec a (p - 1 - b)); destruct (Z.leb_spec (Z.of_nat (p - 1 - b)) (Z.of_nat a + -1)); try lia; tauto.
Qed.

(** plot_variance with diag=False. *)
Lemma removelast_length {A} (l : list A) : length (removelast l) = (length l - 1)%nat.
Proof. induction l as [|x t IH]; [reflexivity|]. cbn [removelast]. destruct t; [reflexivity|]. cbn [length] in *. rewrite IH. lia. Qed.

Lemma plot_variance_nodiag_strict n idx m p cb title : (0 < p)%nat -> length idx = p -> rect p p m ->
  Forall (fun q => (q < 5 + n_coeff n)%nat) idx ->
  plot_variance true (map Fin (map INR idx) :: m) n false cb title = Err ValueError.
Proof.
  intros Hp Hl Hm F. destruct (labels_of n idx F) as [L1 L2].
  pose proof (concat_nonempty p m Hm Hp) as NE.
  destruct (np_min_ok _ NE) as [vmin Emin]. destruct (np_max_ok _ NE) as [vmax Emax].
  assert (Lm : length m = p) by apply Hm.
  unfold plot_variance. unfold py_get at 1. cbn [nth_error bind skipn].
  rewrite L1. cbn [bind]. rewrite L2. cbn [bind].
  rewrite !map_length, Hl, Lm, Nat.eqb_refl. cbn [negb]. rewrite Emin, Emax. cbn [bind].
  unfold ticks. rewrite removelast_length. unfold used_labels. rewrite !map_length, seq_length, Hl.
  replace (Nat.eqb (p - 1) p) with false by (symmetry; apply Nat.eqb_neq; lia). reflexivity.
Qed.

Lemma nth_removelast {A} (l : list A) i d : (i < length l - 1)%nat -> nth i (removelast l) d = nth i l d.
Proof.
  revert i. induction l as [|x t IH]; intros i H; [reflexivity|]. destruct t as [|y t]; [cbn in H; lia|]. change (removelast (x :: y :: t)) with (x :: removelast (y :: t)).
  destruct i as [|i]; [reflexivity|]. cbn [nth]. rewrite IH by (cbn in *; lia). reflexivity.
Qed.
Lemma combine_app_nth0 {A B} (l : list A) (k k' : list B) x d : nth_error l 0 = Some x -> k <> [] -> nth_error (combine l (k ++ k')) 0 = Some (x, nth 0 k d).
Proof. destruct l, k; cbn; congruence. Qed.

(** Before matplotlib 3.3: the wrong name at the bottom. *)
Lemma plot_variance_nodiag_old n idx m p cb title : (3 <= p)%nat -> length idx = p -> rect p p m ->
  Forall (fun q => (q < 5 + n_coeff n)%nat) idx ->
  exists pn, plot_variance false (map Fin (map INR idx) :: m) n false cb title = Ok {| fg_size := (6.4, 4.8); fg_title := ""; fg_panels := [pn] |} /\
    (forall v, shows (pn_image pn) (1 / 2) (1 / 2) v <-> v = Some (elem NaN m 0 (p - 1))) /\
    nth_error (pn_xticks pn) 0 = Some (1 / 2, nth (nth 0 idx 0%nat) (label_names n) "") /\
    nth_error (pn_yticks pn) 0 = Some (1 / 2, nth (nth (p - 2) idx 0%nat) (label_names n) "").
Proof.
  intros Hp Hl Hm F. destruct (labels_of n idx F) as [L1 L2].
  assert (P0 : (0 < p)%nat) by lia. pose proof (concat_nonempty p m Hm P0) as NE.
  destruct (np_min_ok _ NE) as [vmin Emin]. destruct (np_max_ok _ NE) as [vmax Emax].
  assert (Lm : length m = p) by apply Hm.
  unfold plot_variance. unfold py_get at 1. cbn [nth_error bind skipn].
  rewrite L1. cbn [bind]. rewrite L2. cbn [bind].
  rewrite !map_length, Hl, Lm, Nat.eqb_refl. cbn [negb]. rewrite Emin, Emax. cbn [bind].
  unfold ticks. cbn [andb bind].
  eexists. split; [reflexivity|]. cbn [pn_image pn_xticks pn_yticks].
  assert (LL : length (used_labels n idx) = p) by (unfold used_labels; rewrite map_length; exact Hl).
  assert (NT : forall k, (k < p)%nat -> nth k (used_labels n idx) "" = nth (nth k idx 0%nat) (label_names n) "").
  { intros k Hk. unfold used_labels. apply nth_error_nth. erewrite map_nth_error; [reflexivity|]. apply nth_error_nth'. lia. }
  assert (S0 : nth_error (map (fun i => INR i + 1 / 2) (seq 0 p)) 0 = Some (1 / 2)).
  { destruct p; [lia|]. cbn. f_equal. lra. }
  assert (LNE : forall l : list string, (0 < length l)%nat -> l <> []) by (intros [|? ?]; cbn; [lia|discriminate]).
  split; [|split].
  - intros v. pose proof (masked_rect p 0 m Hm) as MR. destruct (transpose_n_spec None p p _ MR) as [TR TE].
    replace (1 / 2) with (INR 0 + 1 / 2) by (cbn; lra).
    rewrite (shows_unit _ p); cbn [im_data im_x0 im_x1 im_y0 im_y1 im_lower]; auto.
    fold (masked_of p 0 m). rewrite TE by lia. rewrite masked_elem by (auto; lia). rewrite Nat.sub_0_r.
    destruct (Z.leb_spec (Z.of_nat (p - 1)) (Z.of_nat 0 + 0)); [lia|]. tauto.
  - etransitivity; [apply (combine_app_nth0 _ _ _ (1 / 2) ""); [exact S0|apply LNE; rewrite removelast_length; lia]|].
    rewrite nth_removelast by lia. rewrite NT by lia. reflexivity.
  - etransitivity; [apply (combine_app_nth0 _ _ _ (1 / 2) ""); [exact S0|apply LNE; rewrite removelast_length, rev_length, removelast_length; lia]|].
    rewrite nth_removelast by (rewrite rev_length, removelast_length; lia). rewrite rev_nth by (rewrite removelast_length; lia).
    rewrite nth_removelast by (rewrite removelast_length; lia). rewrite removelast_length, LL. rewrite NT by lia. do 2 f_equal. f_equal. f_equal. lia.
Qed.
