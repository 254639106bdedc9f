(** rms and Ruze efficiency over the disk, with NaN pixels. *)
From Verif Require Import PyBase PyLib Sums Num MMath MAperture SMath PRms.
Open Scope R_scope.

Lemma masked_grid_num n a : masked n (grid n a) = grid n (fun j i => if diskb n i j then a j i else NaN).
Proof.
  apply (square_ext NaN n); [apply masked_square, grid_square|apply grid_square|].
  intros i j Hi Hj. rewrite masked_nth by (auto using grid_square). rewrite !grid_nth by assumption. unfold diskb.
  destruct (Rltb_spec 1 (nth i (linspace (-1) 1 n) 0 ^ 2 + nth j (linspace (-1) 1 n) 0 ^ 2)); destruct (Rle_dec _ 1); try reflexivity; exfalso; lra.
Qed.

Lemma notnan_vals l : no_inf l -> filter (fun p => negb (nisnan p)) l = map Fin (vals l).
Proof.
  induction l as [|p l IH]; intros H; [reflexivity|]. assert (IH' := IH (fun q Hq => H q (or_intror Hq))). destruct (H p (or_introl eq_refl)) as [H1 H2].
  destruct p; cbn; [f_equal; exact IH'|contradiction|contradiction|exact IH'].
Qed.
Lemma sum_vals (f : R -> R) l : py_sum (map f (vals l)) = py_sum (map (fun p => match p with Fin x => f x | _ => 0 end) l).
Proof.
  induction l as [|p l IH]; [reflexivity|]. cbn [map]. rewrite py_sum_cons, <- IH. destruct p; cbn [vals flat_map app]; fold (vals l); cbn [map]; rewrite ?py_sum_cons; ring.
Qed.
Lemma sum_grid (f : num -> R) n a : py_sum (map f (concat (grid n a))) = Rsum n (fun j => Rsum n (fun i => f (a j i))).
Proof.
  assert (G : forall m : list (list num), py_sum (map f (concat m)) = py_sum (map (fun r => py_sum (map f r)) m)).
  { induction m as [|r m IH]; [reflexivity|]. cbn [concat map]. rewrite map_app, py_sum_app, py_sum_cons, IH. reflexivity. }
  rewrite G. unfold grid. rewrite map_map, py_sum_seq. apply Rsum_ext. intros j Hj. rewrite map_map, py_sum_seq. reflexivity.
Qed.

Lemma rms_circ_num n (a : nat -> nat -> num) : (forall i j, (i < n)%nat -> (j < n)%nat -> in_disk n i j -> a j i <> PInf /\ a j i <> NInf) ->
  let over f := Rsum n (fun j => Rsum n (fun i => if diskb n i j then match a j i with Fin x => f x | _ => 0 end else 0)) in
  exists P', rms_circ (grid n a) = Ok (if Req_EM_T (over (fun _ => 1)) 0 then NaN else Fin (sqrt (over (fun x => x ^ 2) / over (fun _ => 1))), P').
Proof.
  intros HI over. eexists. rewrite (rms_circ_unfold n) by apply grid_square. rewrite masked_grid_num. f_equal. f_equal.
  set (m := grid n (fun j i => if diskb n i j then a j i else NaN)).
  assert (NI : no_inf (concat m)).
  { intros p Hp. apply in_concat in Hp. destruct Hp as (row & Hrow & Hp). unfold m, grid in Hrow. apply in_map_iff in Hrow. destruct Hrow as (j & <- & Hj). apply in_map_iff in Hp. destruct Hp as (i & <- & Hi). apply in_seq in Hi, Hj.
    destruct (diskb n i j) eqn:D; [|split; discriminate]. apply HI; try lia. unfold diskb in D. unfold in_disk. destruct (Rle_dec _ 1); [assumption|discriminate]. }
  rewrite notnan_vals by exact NI.
  assert (EF : forall f, py_sum (map f (vals (concat m))) = over f).
  { intros f. rewrite sum_vals. unfold m. rewrite sum_grid. unfold over. apply Rsum_ext. intros j Hj. apply Rsum_ext. intros i Hi. destruct (diskb n i j); reflexivity. }
  assert (EN : INR (length (vals (concat m))) = over (fun _ => 1)) by (rewrite INR_length_sum, EF; reflexivity).
  specialize (EF (fun x => x ^ 2)). destruct (vals (concat m)) as [|x l] eqn:E.
  - cbn in EN. rewrite <- EN. destruct (Req_EM_T 0 0); [|lra]. apply rms_flat_empty.
  - rewrite rms_flat_value; [|discriminate|apply no_inf_Fin]. rewrite vals_Fin, map_length, EN, EF. destruct (Req_EM_T (over (fun _ => 1)) 0) as [E0|_]; [|reflexivity].
    exfalso. rewrite <- EN in E0. change (length (x :: l)) with (Datatypes.S (length l)) in E0. rewrite S_INR in E0. pose proof (pos_INR (length l)). lra.
Qed.

Lemma e_rs_circ_num n (a : nat -> nat -> num) : (forall i j, (i < n)%nat -> (j < n)%nat -> in_disk n i j -> a j i <> PInf /\ a j i <> NInf) ->
  let over f := Rsum n (fun j => Rsum n (fun i => if diskb n i j then match a j i with Fin x => f x | _ => 0 end else 0)) in
  exists r P', rms_circ (grid n a) = Ok (r, P') /\
    e_rs_circ (grid n a) = Ok (if Req_EM_T (over (fun _ => 1)) 0 then NaN else Fin (exp (- (over (fun x => x ^ 2) / over (fun _ => 1)))), P').
Proof.
  intros HI over. destruct (rms_circ_num n a HI) as [P' E]. change (rms_circ (grid n a) = Ok (if Req_EM_T (over (fun _ => 1)) 0 then NaN else Fin (sqrt (over (fun x => x ^ 2) / over (fun _ => 1))), P')) in E.
  exists (if Req_EM_T (over (fun _ => 1)) 0 then NaN else Fin (sqrt (over (fun x => x ^ 2) / over (fun _ => 1)))), P'. split; [exact E|].
  rewrite (e_rs_circ_eq _ _ _ E). f_equal. f_equal. destruct (Req_EM_T (over (fun _ => 1)) 0) as [_|N0]; [reflexivity|]. cbn [nexp_negsq]. do 3 f_equal.
  assert (POS : forall f, (forall x, 0 <= f x) -> 0 <= over f).
  { intros f Hf. unfold over. apply Rsum_nonneg. intros j Hj. apply Rsum_nonneg. intros i Hi. destruct (diskb n i j); [|lra]. destruct (a j i); try lra. apply Hf. }
  rewrite pow2_sqrt; [reflexivity|]. apply Rmult_le_pos; [apply POS; intros; apply pow2_ge_0|]. pose proof (POS (fun _ => 1) (fun _ => Rle_0_1)). left. apply Rinv_0_lt_compat. lra.
Qed.
