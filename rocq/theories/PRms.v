(** C16-C18: rms and the Ruze efficiency. *)
From Coq Require Import Permutation.
From Verif Require Import PyBase Sums PyLib Num MMath SMath MAperture PPhase PNorm.
Open Scope R_scope.

Lemma nadd_comm a b : nadd a b = nadd b a.
Proof. destruct a, b; cbn; try reflexivity. f_equal; ring. Qed.
Lemma nadd_assoc a b c : nadd a (nadd b c) = nadd (nadd a b) c.
Proof. destruct a, b, c; cbn; try reflexivity. f_equal; ring. Qed.
Lemma nadd_0_l a : nadd (Fin 0) a = a.
Proof. destruct a; cbn; try reflexivity. f_equal; ring. Qed.

Lemma fold_nadd l a : fold_left nadd l a = nadd a (fold_left nadd l (Fin 0)).
Proof.
  revert a; induction l as [|x l IH]; intros a; cbn [fold_left].
  - rewrite nadd_comm, nadd_0_l. reflexivity.
  - rewrite IH, (IH (nadd (Fin 0) x)), nadd_0_l, nadd_assoc. reflexivity.
Qed.

Lemma fold_nadd_perm l l' : Permutation l l' -> fold_left nadd l (Fin 0) = fold_left nadd l' (Fin 0).
Proof.
  induction 1 as [|x l l' _ IH|x y l|l1 l2 l3 _ IH1 _ IH2]; cbn [fold_left].
  - reflexivity.
  - rewrite (fold_nadd l), (fold_nadd l'), IH. reflexivity.
  - rewrite (fold_nadd l), (fold_nadd l (nadd (nadd _ x) y)), !nadd_0_l, (nadd_comm x y). reflexivity.
  - congruence.
Qed.

Lemma rms_perm m m' : Permutation (concat m) (concat m') -> rms_plain m = rms_plain m'.
Proof.
  intros H. unfold rms_plain, rms_flat. rewrite (Permutation_length H). f_equal. f_equal.
  unfold nansum. apply fold_nadd_perm. apply Permutation_map, Permutation_map. exact H.
Qed.

(** Finite values of a list. *)

Lemma vals_Fin v : vals (map Fin v) = v.
Proof. unfold vals. induction v as [|x v IH]; [reflexivity|]. cbn. rewrite IH. reflexivity. Qed.

Lemma nansum_sq l : no_inf l -> nansum (map nsquare l) = Fin (py_sum (map (fun x => x ^ 2) (vals l))).
Proof.
  induction l as [|p l IH]; intros H; [reflexivity|].
  specialize (IH (fun q Hq => H q (or_intror Hq))). destruct (H p (or_introl eq_refl)) as [H1 H2].
  unfold nansum in *. cbn [map fold_left]. rewrite fold_nadd, IH.
  destruct p; try congruence; cbn [vals flat_map app map].
  - cbn [nsquare nmul nisnan]. fold (vals l). rewrite py_sum_cons. cbn. f_equal. ring.
  - cbn [nsquare nmul nisnan]. fold (vals l). cbn. f_equal. ring.
Qed.

Lemma sq_sum_nonneg v : 0 <= py_sum (map (fun x => x ^ 2) v).
Proof. induction v as [|x v IH]; [unfold py_sum; cbn; lra|]. cbn [map]. rewrite py_sum_cons. pose proof (pow2_ge_0 x). lra. Qed.

Lemma rms_flat_value l : l <> [] -> no_inf l ->
  rms_flat l = Fin (sqrt (py_sum (map (fun x => x ^ 2) (vals l)) / INR (length l))).
Proof.
  intros Hl H. unfold rms_flat. rewrite nansum_sq by assumption. cbn [ndiv].
  assert (0 < INR (length l)) by (apply lt_0_INR; destruct l; [congruence|cbn; lia]).
  destruct (Req_EM_T (INR (length l)) 0); [exfalso; lra|]. cbn [nsqrt].
  destruct (Rle_dec 0 _) as [_|N]; [reflexivity|]. exfalso; apply N.
  apply Rmult_le_pos; [apply sq_sum_nonneg|]. left; apply Rinv_0_lt_compat; assumption.
Qed.

Lemma rms_flat_empty : rms_flat [] = NaN.
Proof. unfold rms_flat, nansum. cbn. destruct (Req_EM_T 0 0); [|lra]. unfold inf_sign. destruct (Rlt_dec 0 0); [lra|]. destruct (Rlt_dec 0 0); [lra|reflexivity]. Qed.

Lemma concat_map_map {A B} (f : A -> B) m : concat (map (map f) m) = map f (concat m).
Proof. induction m as [|r m IH]; [reflexivity|]. cbn. rewrite IH, map_app. reflexivity. Qed.

Lemma no_inf_Fin v : no_inf (map Fin v).
Proof. intros p Hp. apply in_map_iff in Hp as (x & <- & _). split; congruence. Qed.

(** Finite maps. *)
Definition rmsR (v : list R) : R := sqrt (py_sum (map (fun x => x ^ 2) v) / INR (length v)).

Lemma rms_finite m : concat m <> [] -> rms_plain (map (map Fin) m) = Fin (rmsR (concat m)).
Proof.
  intros H. unfold rms_plain. rewrite concat_map_map, rms_flat_value.
  - rewrite vals_Fin, map_length. reflexivity.
  - destruct (concat m); [congruence|discriminate].
  - apply no_inf_Fin.
Qed.

Lemma len_pos {A} (v : list A) : v <> [] -> 0 < INR (length v).
Proof. intros H. apply lt_0_INR. destruct v; [congruence|cbn; lia]. Qed.

Lemma rmsR_sq v : v <> [] -> 0 <= rmsR v /\ rmsR v ^ 2 * INR (length v) = py_sum (map (fun x => x ^ 2) v).
Proof.
  intros H. pose proof (len_pos v H). split; [apply sqrt_pos|]. unfold rmsR. rewrite pow2_sqrt.
  - field. lra.
  - apply Rmult_le_pos; [apply sq_sum_nonneg|]. left; apply Rinv_0_lt_compat; assumption.
Qed.

Lemma sq_sum_scale c v : py_sum (map (fun x => x ^ 2) (map (Rmult c) v)) = c ^ 2 * py_sum (map (fun x => x ^ 2) v).
Proof. induction v as [|x v IH]; [unfold py_sum; cbn; ring|]. cbn [map]. rewrite !py_sum_cons, IH. ring. Qed.

Lemma rmsR_scale c v : rmsR (map (Rmult c) v) = Rabs c * rmsR v.
Proof.
  unfold rmsR. rewrite sq_sum_scale, map_length. unfold Rdiv. rewrite Rmult_assoc, sqrt_mult_alt by apply pow2_ge_0.
  replace (c ^ 2) with (Rsqr c) by (unfold Rsqr; ring). rewrite sqrt_Rsqr_abs. reflexivity.
Qed.

Lemma sq_sum_zero v : py_sum (map (fun x => x ^ 2) v) = 0 -> forall x, In x v -> x = 0.
Proof.
  induction v as [|y v IH]; intros H x Hx; [destruct Hx|]. cbn [map] in H. rewrite py_sum_cons in H.
  pose proof (sq_sum_nonneg v). pose proof (pow2_ge_0 y). destruct Hx as [<-|Hx].
  - apply Rsqr_0_uniq. unfold Rsqr. nra.
  - apply IH; [lra|exact Hx].
Qed.

Lemma rmsR_zero v : v <> [] -> (rmsR v = 0 <-> forall x, In x v -> x = 0).
Proof.
  intros H. destruct (rmsR_sq v H) as [_ E]. split.
  - intros E0. rewrite E0 in E. apply sq_sum_zero. rewrite <- E. ring.
  - intros Hz. assert (Es : py_sum (map (fun x => x ^ 2) v) = 0).
    { clear -Hz. induction v as [|x v IH]; [reflexivity|]. cbn [map]. rewrite py_sum_cons, IH.
      - rewrite (Hz x) by (left; reflexivity). ring.
      - intros y Hy. apply Hz. right; exact Hy. }
    unfold rmsR. rewrite Es. unfold Rdiv. rewrite Rmult_0_l. apply sqrt_0.
Qed.

Lemma sq_sum_le v B : (forall x, In x v -> Rabs x <= B) -> py_sum (map (fun x => x ^ 2) v) <= INR (length v) * B ^ 2.
Proof.
  induction v as [|x v IH]; intros H; [unfold py_sum; cbn; lra|]. cbn [map]. rewrite py_sum_cons.
  specialize (IH (fun y Hy => H y (or_intror Hy))). specialize (H x (or_introl eq_refl)).
  replace (length (x :: v)) with (S (length v)) by reflexivity. rewrite S_INR.
  rewrite <- pow2_abs. pose proof (Rabs_pos x). nra.
Qed.

Lemma rmsR_le v B : v <> [] -> 0 <= B -> (forall x, In x v -> Rabs x <= B) -> rmsR v <= B.
Proof.
  intros Hv HB H. pose proof (len_pos v Hv). rewrite <- (sqrt_pow2 B) by assumption. apply sqrt_le_1_alt.
  apply Rmult_le_reg_r with (INR (length v)); [assumption|]. unfold Rdiv. rewrite Rmult_assoc, Rinv_l, Rmult_1_r by lra.
  rewrite Rmult_comm. apply sq_sum_le; assumption.
Qed.

Lemma rms_api m : concat m <> [] -> exists r, rms_plain (map (map Fin) m) = Fin r /\ 0 <= r /\
  r ^ 2 * INR (length (concat m)) = py_sum (map (fun x => x ^ 2) (concat m)) /\
  (r = 0 <-> forall x, In x (concat m) -> x = 0) /\
  (forall B, 0 <= B -> (forall x, In x (concat m) -> Rabs x <= B) -> r <= B) /\
  (forall c, rms_plain (map (map Fin) (map (map (Rmult c)) m)) = Fin (Rabs c * r)).
Proof.
  intros H. exists (rmsR (concat m)). split; [apply rms_finite; assumption|].
  destruct (rmsR_sq _ H) as [H1 H2]. split; [exact H1|]. split; [exact H2|]. split; [apply rmsR_zero; assumption|].
  split; [intros; apply rmsR_le; assumption|].
  intros c. rewrite rms_finite; rewrite concat_map_map.
  - rewrite rmsR_scale. reflexivity.
  - destruct (concat m); [congruence|discriminate].
Qed.

(** NaN entries count in the divisor. *)
Lemma rms_with_nan m : concat m <> [] -> no_inf (concat m) ->
  rms_plain m = Fin (sqrt (py_sum (map (fun x => x ^ 2) (vals (concat m))) / INR (length (concat m)))).
Proof. intros. unfold rms_plain. apply rms_flat_value; assumption. Qed.

Lemma rms_nan_not_mean : exists m, vals (concat m) <> [] /\ no_inf (concat m) /\
  rms_plain m <> Fin (sqrt (py_sum (map (fun x => x ^ 2) (vals (concat m))) / INR (length (vals (concat m))))).
Proof.
  exists [[Fin 1; NaN]]. split; [discriminate|].
  assert (N : no_inf (concat [[Fin 1; NaN]])) by (intros p [<-|[<-|[]]]; split; congruence).
  split; [exact N|]. rewrite rms_with_nan by (exact N || discriminate). cbn. intros H. injection H as H.
  replace ((1 * (1 * 1) + 0) / (1 + 1)) with (1 / 2) in H by field.
  unfold py_sum in H; cbn in H. replace ((0 + 1 * (1 * 1)) / (1 + 1)) with (1 / 2) in H by field. replace ((0 + 1 * (1 * 1)) / 1) with 1 in H by field.
  rewrite sqrt_1 in H. assert (1 / 2 = 1); [|lra]. rewrite <- (sqrt_sqrt (1 / 2)) by lra. rewrite H. ring.
Qed.

(** C17. *)

Lemma mask_nth n i j : (i < n)%nat -> (j < n)%nat ->
  nth i (nth j (circ_mask n n) []) false = Rltb 1 ((nth i (linspace (-1) 1 n) 0) ^ 2 + (nth j (linspace (-1) 1 n) 0) ^ 2).
Proof.
  intros Hi Hj. unfold circ_mask, map2d, meshgrid. set (x := linspace (-1) 1 n). assert (Lx : length x = n) by apply linspace_length.
  rewrite map_map.
  rewrite nth_indep with (d' := (fun yj => map (fun '(xx, yy) => Rltb (1 ^ 2) (xx ^ 2 + yy ^ 2)) (map (fun xi => (xi, yj)) x)) 0) by (rewrite map_length; lia).
  rewrite map_nth with (f := fun yj => map (fun '(xx, yy) => Rltb (1 ^ 2) (xx ^ 2 + yy ^ 2)) (map (fun xi => (xi, yj)) x)).
  rewrite map_map. rewrite nth_indep with (d' := (fun xi => Rltb (1 ^ 2) (xi ^ 2 + nth j x 0 ^ 2)) 0) by (rewrite map_length; lia).
  rewrite map_nth with (f := fun xi => Rltb (1 ^ 2) (xi ^ 2 + nth j x 0 ^ 2)). rewrite pow1. reflexivity.
Qed.

Lemma circ_mask_length n : length (circ_mask n n) = n.
Proof. unfold circ_mask, map2d, meshgrid. rewrite !map_length. apply linspace_length. Qed.
Lemma circ_mask_row n j : (j < n)%nat -> length (nth j (circ_mask n n) []) = n.
Proof.
  intros Hj. unfold circ_mask, map2d, meshgrid. rewrite map_map.
  rewrite nth_indep with (d' := (fun yj => map (fun '(xx, yy) => Rltb (1 ^ 2) (xx ^ 2 + yy ^ 2)) (map (fun xi => (xi, yj)) (linspace (-1) 1 n))) 0) by (rewrite map_length, linspace_length; assumption).
  rewrite map_nth with (f := fun yj => map (fun '(xx, yy) => Rltb (1 ^ 2) (xx ^ 2 + yy ^ 2)) (map (fun xi => (xi, yj)) (linspace (-1) 1 n))).
  rewrite !map_length. apply linspace_length.
Qed.


Lemma square_ncols {A} n (P : list (list A)) : square n P -> ncols P = n.
Proof. intros [L R]. destruct P as [|r P]; cbn; [cbn in L; lia|apply R; left; reflexivity]. Qed.

Definition masked (n : nat) (P : list (list num)) : list (list num) :=
  map2 (map2 (fun (m : bool) p => if m then NaN else p)) (circ_mask n n) P.

Lemma row_length {A} n (P : list (list A)) j : square n P -> (j < n)%nat -> length (nth j P []) = n.
Proof. intros [L R] H. apply R. apply nth_In. lia. Qed.

Lemma masked_nth n P i j : square n P -> (i < n)%nat -> (j < n)%nat ->
  nth i (nth j (masked n P) []) NaN =
  if Rltb 1 ((nth i (linspace (-1) 1 n) 0) ^ 2 + (nth j (linspace (-1) 1 n) 0) ^ 2) then NaN else nth i (nth j P []) NaN.
Proof.
  intros S Hi Hj. unfold masked.
  rewrite (map2_nth _ (circ_mask n n) P j [] [] []) by (rewrite circ_mask_length; destruct S; lia).
  rewrite (map2_nth _ _ _ i false NaN NaN) by (rewrite circ_mask_row by assumption; first [assumption|symmetry; apply row_length; assumption]).
  rewrite mask_nth by assumption. reflexivity.
Qed.

Lemma map2_in {A B C} (f : A -> B -> C) l1 l2 z : In z (map2 f l1 l2) -> exists x y, In x l1 /\ In y l2 /\ z = f x y.
Proof.
  revert l2; induction l1 as [|x t IH]; intros [|y t2] H; cbn in H; try destruct H as [].
  - exists x, y. repeat split; [left|left|]; auto.
  - destruct (IH t2 H) as (a & b & Ha & Hb & E). exists a, b. repeat split; [right|right|]; auto.
Qed.

Lemma masked_square n P : square n P -> square n (masked n P).
Proof.
  intros [L R]. split.
  - unfold masked. rewrite map2_length; rewrite circ_mask_length; lia.
  - intros row Hrow. unfold masked in Hrow. apply In_nth with (d := []) in Hrow as (j & Hj & <-).
    rewrite map2_length in Hj by (rewrite circ_mask_length; lia). rewrite circ_mask_length in Hj.
    rewrite (map2_nth _ (circ_mask n n) P j [] [] []) by (rewrite circ_mask_length; lia).
    rewrite map2_length; rewrite circ_mask_row by assumption; [reflexivity|]. symmetry. apply R, nth_In. lia.
Qed.

Lemma rms_circ_unfold n P : square n P ->
  rms_circ P = Ok (rms_flat (filter (fun p => negb (nisnan p)) (concat (masked n P))), masked n P).
Proof. intros S. unfold rms_circ. rewrite (square_ncols n) by assumption. destruct S as [L _]. rewrite L, Nat.eqb_refl. reflexivity. Qed.

Lemma square_ext {A} (d : A) n P Q : square n P -> square n Q -> (forall i j, (i < n)%nat -> (j < n)%nat -> nth i (nth j P []) d = nth i (nth j Q []) d) -> P = Q.
Proof.
  intros [L1 R1] [L2 R2] H. apply nth_ext with [] []; [lia|]. intros j Hj.
  apply nth_ext with d d.
  - rewrite R1, R2; [reflexivity|apply nth_In; lia|apply nth_In; lia].
  - intros i Hi. apply H; [|lia]. rewrite R1 in Hi; [exact Hi|apply nth_In; lia].
Qed.

Lemma masked_idem n P : square n P -> masked n (masked n P) = masked n P.
Proof.
  intros S. apply (square_ext NaN n).
  - apply masked_square, masked_square, S.
  - apply masked_square, S.
  - intros i j Hi Hj. rewrite (masked_nth n (masked n P)) by (auto using masked_square). rewrite masked_nth by assumption.
    destruct (Rltb _ _); reflexivity.
Qed.

Lemma rms_circ_second n P r P' : square n P -> rms_circ P = Ok (r, P') -> rms_circ P' = Ok (r, P').
Proof.
  intros S E. rewrite (rms_circ_unfold n P S) in E. injection E as <- <-.
  rewrite (rms_circ_unfold n _ (masked_square n P S)), masked_idem by assumption. reflexivity.
Qed.

Lemma rms_circ_outside n P Q : square n P -> square n Q ->
  (forall i j, (i < n)%nat -> (j < n)%nat -> in_disk n i j -> nth i (nth j P []) NaN = nth i (nth j Q []) NaN) ->
  rms_circ P = rms_circ Q.
Proof.
  intros SP SQ H. rewrite (rms_circ_unfold n P SP), (rms_circ_unfold n Q SQ).
  assert (E : masked n P = masked n Q); [|rewrite E; reflexivity].
  apply (square_ext NaN n); [apply masked_square, SP|apply masked_square, SQ|].
  intros i j Hi Hj. rewrite !masked_nth by assumption. destruct (Rltb _ _) eqn:E; [reflexivity|].
  apply Rltb_false in E. apply H; assumption.
Qed.

Lemma rms_circ_pixels n P r P' : square n P -> rms_circ P = Ok (r, P') -> square n P' /\
  forall i j, (i < n)%nat -> (j < n)%nat ->
   (in_disk n i j -> nth i (nth j P' []) NaN = nth i (nth j P []) NaN) /\ (~ in_disk n i j -> nth i (nth j P' []) NaN = NaN).
Proof.
  intros S E. rewrite (rms_circ_unfold n P S) in E. injection E as <- <-. split; [apply masked_square, S|].
  intros i j Hi Hj. rewrite masked_nth by assumption. unfold in_disk. destruct (Rltb_spec 1 (nth i (linspace (-1) 1 n) 0 ^ 2 + nth j (linspace (-1) 1 n) 0 ^ 2)); split; intros; auto; exfalso; lra.
Qed.

Lemma rms_circ_not_square P : length P <> ncols P -> rms_circ P = Err IndexError.
Proof. intros H. unfold rms_circ. destruct (Nat.eqb_spec (length P) (ncols P)); [contradiction|reflexivity]. Qed.

(** The value: mean over the pixels of the disk. *)

Lemma grid_square {A} n (a : nat -> nat -> A) : square n (grid n a).
Proof. split; [unfold grid; rewrite map_length, seq_length; reflexivity|]. intros row H. apply in_map_iff in H as (j & <- & _). rewrite map_length, seq_length. reflexivity. Qed.
Lemma grid_nth {A} n (a : nat -> nat -> A) d i j : (i < n)%nat -> (j < n)%nat -> nth i (nth j (grid n a) []) d = a j i.
Proof.
  intros Hi Hj. unfold grid. rewrite nth_indep with (d' := (fun j => map (fun i => a j i) (seq 0 n)) O) by (rewrite map_length, seq_length; assumption).
  rewrite map_nth with (f := fun j => map (fun i => a j i) (seq 0 n)), seq_nth by assumption. cbn [plus].
  rewrite nth_indep with (d' := a j O) by (rewrite map_length, seq_length; assumption).
  rewrite map_nth, seq_nth by assumption. reflexivity.
Qed.


Lemma masked_grid n a : masked n (grid n (fun j i => Fin (a j i))) = grid n (fun j i => if diskb n i j then Fin (a j i) else NaN).
Proof.
  apply (square_ext NaN n); [apply masked_square, grid_square|apply grid_square|].
  intros i j Hi Hj. rewrite masked_nth by (auto using grid_square). rewrite !grid_nth by assumption. unfold diskb.
  destruct (Rltb_spec 1 (nth i (linspace (-1) 1 n) 0 ^ 2 + nth j (linspace (-1) 1 n) 0 ^ 2)); destruct (Rle_dec _ 1); try reflexivity; exfalso; lra.
Qed.

Lemma filter_row (b : nat -> bool) (a : nat -> R) s :
  filter (fun p => negb (nisnan p)) (map (fun i => if b i then Fin (a i) else NaN) s) = map (fun i => Fin (a i)) (filter b s).
Proof. induction s as [|i s IH]; [reflexivity|]. cbn [map filter]. destruct (b i); cbn; rewrite IH; reflexivity. Qed.

Lemma filter_concat {A} (f : A -> bool) m : filter f (concat m) = concat (map (filter f) m).
Proof. induction m as [|r m IH]; [reflexivity|]. cbn. rewrite filter_app, IH. reflexivity. Qed.

Lemma py_sum_filter (b : nat -> bool) (f : nat -> R) s :
  py_sum (map f (filter b s)) = py_sum (map (fun i => if b i then f i else 0) s).
Proof. induction s as [|i s IH]; [reflexivity|]. cbn [filter]. destruct (b i) eqn:E; cbn [map]; rewrite ?py_sum_cons, IH, ?E; [reflexivity|ring]. Qed.

Lemma INR_length_sum {A} (s : list A) : INR (length s) = py_sum (map (fun _ => 1) s).
Proof. induction s as [|i s IH]; [reflexivity|]. cbn [map]. rewrite py_sum_cons, <- IH. change (length (i :: s)) with (S (length s)). rewrite S_INR. ring. Qed.

Definition disk_list n (a : nat -> nat -> R) : list R := concat (map (fun j => map (fun i => a j i) (filter (fun i => diskb n i j) (seq 0 n))) (seq 0 n)).

Lemma py_sum_concat (f : R -> R) (m : list (list R)) : py_sum (map f (concat m)) = py_sum (map (fun r => py_sum (map f r)) m).
Proof. induction m as [|r m IH]; [reflexivity|]. cbn [concat map]. rewrite map_app, py_sum_app, py_sum_cons, IH. reflexivity. Qed.

Lemma disk_list_sum n a f : py_sum (map f (disk_list n a)) = Rsum n (fun j => Rsum n (fun i => if diskb n i j then f (a j i) else 0)).
Proof.
  unfold disk_list. rewrite py_sum_concat, map_map, py_sum_seq. apply Rsum_ext. intros j Hj.
  rewrite map_map, py_sum_filter, py_sum_seq. apply Rsum_ext. intros i Hi. reflexivity.
Qed.

Lemma rms_circ_value n a :
  let S := Rsum n (fun j => Rsum n (fun i => if diskb n i j then a j i ^ 2 else 0)) in
  let N := Rsum n (fun j => Rsum n (fun i => if diskb n i j then 1 else 0)) in
  exists P', rms_circ (grid n (fun j i => Fin (a j i))) = Ok (if Req_EM_T N 0 then NaN else Fin (sqrt (S / N)), P').
Proof.
  intros S N. eexists. rewrite (rms_circ_unfold n) by apply grid_square. rewrite masked_grid. f_equal. f_equal.
  replace (filter (fun p => negb (nisnan p)) (concat (grid n (fun j i => if diskb n i j then Fin (a j i) else NaN)))) with (map Fin (disk_list n a)).
  - assert (EN : INR (length (disk_list n a)) = N).
    { rewrite INR_length_sum, (disk_list_sum n a (fun _ => 1)). reflexivity. }
    assert (ES : py_sum (map (fun x => x ^ 2) (disk_list n a)) = S) by apply (disk_list_sum n a (fun x => x ^ 2)).
    destruct (disk_list n a) as [|x l] eqn:E.
    + cbn in EN. rewrite <- EN. destruct (Req_EM_T 0 0); [|lra]. apply rms_flat_empty.
    + rewrite rms_flat_value; [|discriminate|apply no_inf_Fin]. rewrite vals_Fin, map_length, EN, ES.
      destruct (Req_EM_T N 0) as [E0|_]; [|reflexivity]. exfalso. rewrite <- EN in E0. change (length (x :: l)) with (Datatypes.S (length l)) in E0.
      rewrite S_INR in E0. pose proof (pos_INR (length l)). lra.
  - rewrite filter_concat. unfold grid, disk_list. rewrite map_map. rewrite concat_map, map_map. f_equal. apply map_ext. intros j.
    rewrite filter_row, map_map. reflexivity.
Qed.

(** C18. *)
Lemma exp_le_1 x : x <= 0 -> exp x <= 1.
Proof. intros H. rewrite <- exp_0. destruct (Req_dec x 0) as [->|]; [lra|]. left. apply exp_increasing. lra. Qed.

Lemma e_rs_value m : concat m <> [] -> e_rs_plain (map (map Fin) m) = Fin (exp (- rmsR (concat m) ^ 2)).
Proof. intros H. unfold e_rs_plain. rewrite rms_finite by assumption. reflexivity. Qed.

Lemma e_rs_api m : concat m <> [] -> exists e r, e_rs_plain (map (map Fin) m) = Fin e /\ rms_plain (map (map Fin) m) = Fin r /\
  e = exp (- r ^ 2) /\ 0 < e <= 1 /\ (e = 1 <-> forall x, In x (concat m) -> x = 0) /\
  (forall c e', 1 < Rabs c -> e <> 1 -> e_rs_plain (map (map Fin) (map (map (Rmult c)) m)) = Fin e' -> e' < e).
Proof.
  intros H. exists (exp (- rmsR (concat m) ^ 2)), (rmsR (concat m)). split; [apply e_rs_value; assumption|].
  split; [apply rms_finite; assumption|]. split; [reflexivity|].
  destruct (rmsR_sq _ H) as [Hr _]. set (r := rmsR (concat m)) in *. split; [split; [apply exp_pos|apply exp_le_1; pose proof (pow2_ge_0 r); lra]|].
  assert (E1 : exp (- r ^ 2) = 1 <-> r = 0).
  { split; [intros E; rewrite <- exp_0 in E; apply exp_inv in E; nra|intros ->; replace (- 0 ^ 2) with 0 by ring; apply exp_0]. }
  split; [rewrite E1; apply rmsR_zero; assumption|].
  intros c e' Hc Hne E'. assert (r <> 0) by (rewrite <- E1; assumption).
  rewrite e_rs_value in E' by (rewrite concat_map_map; destruct (concat m); [congruence|discriminate]).
  rewrite concat_map_map, rmsR_scale in E'. fold r in E'. assert (Ee : e' = exp (- (Rabs c * r) ^ 2)) by congruence. rewrite Ee. apply exp_increasing.
  rewrite Rpow_mult_distr. assert (1 < Rabs c ^ 2) by nra. assert (0 < r ^ 2) by nra. nra.
Qed.

Lemma e_rs_circ_eq P r P' : rms_circ P = Ok (r, P') -> e_rs_circ P = Ok (nexp_negsq r, P').
Proof. intros E. unfold e_rs_circ. rewrite E. reflexivity. Qed.
