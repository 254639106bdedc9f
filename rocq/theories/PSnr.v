(** C21, C22: line_equation and snr. *)
From Coq Require Import Permutation.
From Verif Require Import PyBase Sums PyLib Num MMath SMath PPhase PNorm PRms.
Open Scope R_scope.

(** C21. *)
Lemma line_finite x1 y1 x2 y2 x : x1 <> x2 ->
  line_equation (Fin x1, Fin y1) (Fin x2, Fin y2) (Fin x) = Fin ((y2 - y1) / (x2 - x1) * (x - x1) + y1).
Proof.
  intros H. unfold line_equation. cbn. destruct (Req_EM_T (x2 + - x1) 0) as [E|E]; [exfalso; lra|].
  cbn. f_equal. 
Qed.

Lemma line_swap x1 y1 x2 y2 x : x1 <> x2 ->
  line_equation (Fin x1, Fin y1) (Fin x2, Fin y2) (Fin x) = line_equation (Fin x2, Fin y2) (Fin x1, Fin y1) (Fin x).
Proof. intros H. rewrite !line_finite by auto. f_equal. field. split; lra. Qed.

Lemma line_through x1 y1 x2 y2 : x1 <> x2 -> exists a b, forall x,
  line_equation (Fin x1, Fin y1) (Fin x2, Fin y2) (Fin x) = Fin (a * x + b) /\ a * x1 + b = y1 /\ a * x2 + b = y2.
Proof.
  intros H. exists ((y2 - y1) / (x2 - x1)), (y1 - (y2 - y1) / (x2 - x1) * x1). intros x. rewrite line_finite by assumption.
  repeat split; [f_equal; ring|ring|]. field. lra.
Qed.

Lemma line_vertical x1 y1 y2 x : ~ finite (line_equation (Fin x1, Fin y1) (Fin x1, Fin y2) (Fin x)).
Proof.
  unfold line_equation. cbn. destruct (Req_EM_T (x1 + - x1) 0) as [E|E]; [|exfalso; lra].
  unfold inf_sign. destruct (Rlt_dec 0 (y2 + - y1)); cbn.
  - unfold inf_sign. destruct (Rlt_dec 0 (x + - x1)); cbn; auto. destruct (Rlt_dec (x + - x1) 0); cbn; auto.
  - destruct (Rlt_dec (y2 + - y1) 0); cbn; auto. unfold inf_sign. destruct (Rlt_dec 0 (x + - x1)); cbn; auto. destruct (Rlt_dec (x + - x1) 0); cbn; auto.
Qed.

(** C22.  Multiplication by a positive gain commutes with every operation. *)
Section Gain.
Variable g : R.
Hypothesis Hg : 0 < g.
Notation sc := (nmul (Fin g)).

Lemma sc_inf x : inf_sign (g * x) = inf_sign x.
Proof. unfold inf_sign. destruct (Rlt_dec 0 x), (Rlt_dec 0 (g * x)); try reflexivity; try (exfalso; nra).
  destruct (Rlt_dec x 0), (Rlt_dec (g * x) 0); try reflexivity; exfalso; nra. Qed.
Lemma inf_g : inf_sign g = PInf.
Proof. unfold inf_sign. destruct (Rlt_dec 0 g); [reflexivity|contradiction]. Qed.
Lemma sc_P : sc PInf = PInf. Proof. cbn. apply inf_g. Qed.
Lemma sc_N : sc NInf = NInf. Proof. cbn. rewrite inf_g. reflexivity. Qed.
Lemma sc_add a b : nadd (sc a) (sc b) = sc (nadd a b).
Proof. destruct a, b; rewrite ?sc_P, ?sc_N; cbn; rewrite ?inf_g; try reflexivity. f_equal; ring. Qed.
Lemma sc_neg a : nneg (sc a) = sc (nneg a).
Proof. destruct a; rewrite ?sc_P, ?sc_N; cbn; rewrite ?inf_g; try reflexivity. f_equal; ring. Qed.
Lemma sc_sub a b : nsub (sc a) (sc b) = sc (nsub a b).
Proof. unfold nsub. rewrite sc_neg, sc_add. reflexivity. Qed.
Lemma sc_nan a : nisnan (sc a) = nisnan a.
Proof. destruct a; rewrite ?sc_P, ?sc_N; reflexivity. Qed.
Lemma sc_sq a : nsquare (sc a) = sc (sc (nsquare a)).
Proof. unfold nsquare. destruct a; rewrite ?sc_P, ?sc_N; cbn; rewrite ?inf_g; cbn; rewrite ?inf_g; try reflexivity. f_equal; ring. Qed.
Lemma sc_div_n a (n : nat) : ndiv (sc a) (Fin (INR n)) = sc (ndiv a (Fin (INR n))).
Proof.
  destruct a; rewrite ?sc_P, ?sc_N; cbn [nmul ndiv].
  - destruct (Req_EM_T (INR n) 0); [|cbn; f_equal; field; assumption]. rewrite sc_inf. unfold inf_sign.
    destruct (Rlt_dec 0 r); [symmetry; apply sc_P|]. destruct (Rlt_dec r 0); [symmetry; apply sc_N|reflexivity].
  - destruct (Rle_dec 0 (INR n)); [rewrite inf_g|rewrite inf_g]; reflexivity.
  - destruct (Rle_dec 0 (INR n)); rewrite inf_g; reflexivity.
  - reflexivity.
Qed.
Lemma sc_sqrt a : nsqrt (sc (sc a)) = sc (nsqrt a).
Proof.
  destruct a; rewrite ?sc_P, ?sc_N; cbn [nmul nsqrt]; try reflexivity; [|rewrite inf_g; reflexivity].
  destruct (Rle_dec 0 r) as [H|H].
  - destruct (Rle_dec 0 (g * (g * r))) as [_|N]; [|exfalso; apply N; apply Rmult_le_pos; [lra|apply Rmult_le_pos; lra]].
    cbn. f_equal. rewrite <- Rmult_assoc, sqrt_mult_alt by nra. rewrite sqrt_square by lra. reflexivity.
  - destruct (Rle_dec 0 (g * (g * r))) as [N|_]; [|reflexivity]. exfalso. apply H.
    apply Rmult_le_reg_l with (g * g); [nra|]. rewrite Rmult_0_r, Rmult_assoc. exact N.
Qed.
Lemma sc_div a b : ndiv (sc a) (sc b) = ndiv a b.
Proof.
  destruct a, b; rewrite ?sc_P, ?sc_N; cbn [nmul ndiv]; try reflexivity; rewrite ?inf_g.
  - destruct (Req_EM_T r0 0) as [->|N].
    + rewrite Rmult_0_r. destruct (Req_EM_T 0 0); [apply sc_inf|congruence].
    + destruct (Req_EM_T (g * r0) 0) as [E|_]; [exfalso; apply N; apply Rmult_eq_reg_l with g; lra|]. f_equal. field. split; lra.
  - destruct (Rle_dec 0 (g * r)), (Rle_dec 0 r); try reflexivity; exfalso; nra.
  - destruct (Rle_dec 0 (g * r)), (Rle_dec 0 r); try reflexivity; exfalso; nra.
Qed.
Lemma sc_max a b : nmax (sc a) (sc b) = sc (nmax a b).
Proof.
  destruct a, b; rewrite ?sc_P, ?sc_N; cbn; rewrite ?inf_g; try reflexivity.
  unfold Rleb. destruct (Rle_dec (g * r) (g * r0)), (Rle_dec r r0); try reflexivity; exfalso; nra.
Qed.

Lemma drop_nan_sc l : drop_nan (map sc l) = map sc (drop_nan l).
Proof. unfold drop_nan. induction l as [|a l IH]; [reflexivity|]. cbn [map filter]. rewrite sc_nan. destruct (negb (nisnan a)); cbn [map]; rewrite IH; reflexivity. Qed.
Lemma nanmax_sc l : nanmax (map sc l) = sc (nanmax l).
Proof.
  unfold nanmax. rewrite drop_nan_sc. destruct (drop_nan l) as [|x t]; [reflexivity|]. cbn [map].
  revert x. induction t as [|y t IH]; intros x; [reflexivity|]. cbn [map fold_left]. rewrite sc_max. apply IH.
Qed.
Lemma nansum_sc l : nansum (map sc l) = sc (nansum l).
Proof.
  unfold nansum. rewrite map_map.
  replace (map (fun x => if nisnan (sc x) then Fin 0 else sc x) l) with (map sc (map (fun a => if nisnan a then Fin 0 else a) l)).
  - generalize (map (fun a => if nisnan a then Fin 0 else a) l) as m. intros m.
    replace (Fin 0) with (sc (Fin 0)) at 1 by (cbn; f_equal; ring). generalize (Fin 0) as z. induction m as [|a m IH]; intros z; [reflexivity|].
    cbn [map fold_left]. rewrite sc_add. apply IH.
  - rewrite map_map. apply map_ext. intros a. rewrite sc_nan. destruct (nisnan a); [cbn; f_equal; ring|reflexivity].
Qed.
Lemma nanmean_sc l : nanmean (map sc l) = sc (nanmean l).
Proof. unfold nanmean. rewrite nansum_sc, drop_nan_sc, map_length. apply sc_div_n. Qed.
Lemma nansum_sc2 l : nansum (map (fun a => sc (sc a)) l) = sc (sc (nansum l)).
Proof. rewrite <- map_map. rewrite !nansum_sc. reflexivity. Qed.
Lemma nanstd_sc l : nanstd (map sc l) = sc (nanstd l).
Proof.
  unfold nanstd. rewrite nanmean_sc, drop_nan_sc, map_length, map_map.
  rewrite (map_ext _ (fun a => sc (sc (nsquare (nsub a (nanmean l)))))) by (intros a; rewrite sc_sub, sc_sq; reflexivity).
  rewrite <- (map_map (fun a => nsquare (nsub a (nanmean l))) (fun a => sc (sc a))), nansum_sc2, !sc_div_n. apply sc_sqrt.
Qed.

Lemma combine_map_r {A B C} (f : B -> C) (l : list A) m : combine l (map f m) = map (fun '(a, b) => (a, f b)) (combine l m).
Proof. revert m; induction l as [|a l IH]; intros [|b m]; try reflexivity. cbn. rewrite IH. reflexivity. Qed.

Lemma sel_map (f : num -> num) (mask : list bool) l :
  map snd (filter fst (combine mask (map f l))) = map f (map snd (filter fst (combine mask l))).
Proof.
  rewrite combine_map_r. induction (combine mask l) as [|[b a] c IH]; [reflexivity|]. cbn. destruct b; cbn; rewrite IH; reflexivity.
Qed.

Lemma snr_gain beam u v centre radius : snr_grid (map (map sc) beam) u v centre radius = snr_grid beam u v centre radius.
Proof. unfold snr_grid. rewrite !concat_map_map, sel_map, nanmax_sc, nanstd_sc. apply sc_div. Qed.

Lemma snr_scatter_gain griddata beam u v centre radius :
  (forall pu pv vals gu gv, griddata pu pv (map sc vals) gu gv = map (map sc) (griddata pu pv vals gu gv)) ->
  snr_scatter griddata (map sc beam) u v centre radius = snr_scatter griddata beam u v centre radius.
Proof.
  intros H. unfold snr_scatter. destruct (np_min (map Fin u)); cbn [bind]; [|reflexivity]. destruct (np_max (map Fin u)); cbn [bind]; [|reflexivity].
  destruct (np_min (map Fin v)); cbn [bind]; [|reflexivity]. destruct (np_max (map Fin v)); cbn [bind]; [|reflexivity].
  rewrite H, snr_gain. reflexivity.
Qed.
End Gain.

(** The closed form on finite maps. *)

Lemma nansum_Fin l : nansum (map Fin l) = Fin (py_sum l).
Proof.
  induction l as [|x l IH]; [reflexivity|]. unfold nansum in *. cbn [map fold_left]. rewrite fold_nadd, IH, py_sum_cons. cbn. f_equal. ring.
Qed.
Lemma drop_nan_Fin l : drop_nan (map Fin l) = map Fin l.
Proof. unfold drop_nan. induction l as [|x l IH]; [reflexivity|]. cbn. rewrite IH. reflexivity. Qed.

Lemma nanstd_Fin l : l <> [] -> nanstd (map Fin l) = Fin (stdR l).
Proof.
  intros H. pose proof (len_pos l H). unfold nanstd, nanmean. rewrite drop_nan_Fin, nansum_Fin, map_length. cbn [ndiv].
  destruct (Req_EM_T (INR (length l)) 0); [exfalso; lra|].
  rewrite map_map. rewrite (map_ext _ (fun x => Fin ((x - meanR l) ^ 2))).
  2:{ intros x. cbn. f_equal. unfold meanR. ring. }
  rewrite <- (map_map (fun x => (x - meanR l) ^ 2) Fin), nansum_Fin. cbn [ndiv].
  destruct (Req_EM_T (INR (length l)) 0); [exfalso; lra|]. cbn [nsqrt].
  destruct (Rle_dec 0 _) as [_|N]; [reflexivity|]. exfalso; apply N.
  apply Rmult_le_pos; [|left; apply Rinv_0_lt_compat; assumption].
  generalize (meanR l) as m. intros m. clear. induction l as [|x l IH]; [unfold py_sum; cbn; lra|]. cbn [map]. rewrite py_sum_cons. pose proof (pow2_ge_0 (x - m)). lra.
Qed.


Lemma combine_app {A B} (l1 l2 : list A) (m1 m2 : list B) : length l1 = length m1 -> combine (l1 ++ l2) (m1 ++ m2) = combine l1 m1 ++ combine l2 m2.
Proof. revert m1; induction l1 as [|x l1 IH]; intros [|y m1] H; cbn in H; try lia; [reflexivity|]. cbn. rewrite IH by lia. reflexivity. Qed.

Lemma sel_row (b : nat -> bool) (a : nat -> num) s :
  map snd (filter fst (combine (map b s) (map a s))) = map a (filter b s).
Proof. induction s as [|i s IH]; [reflexivity|]. cbn. destruct (b i); cbn; rewrite IH; reflexivity. Qed.

Lemma sel_rows (b : nat -> nat -> bool) (a : nat -> nat -> num) s t :
  map snd (filter fst (combine (concat (map (fun j => map (b j) s) t)) (concat (map (fun j => map (a j) s) t))))
  = concat (map (fun j => map (a j) (filter (b j) s)) t).
Proof.
  induction t as [|j t IH]; [reflexivity|]. cbn [map concat]. rewrite combine_app by (rewrite !map_length; reflexivity).
  rewrite filter_app, map_app, IH, sel_row. reflexivity.
Qed.

Lemma nanmax_Fin x t : nanmax (map Fin (x :: t)) = Fin (fold_left Rmax t x).
Proof. unfold nanmax. rewrite drop_nan_Fin. cbn [map]. apply fold_nmax_Fin. Qed.

Lemma snr_value n0 n1 (a : nat -> nat -> R) (u v : nat -> R) centre radius peak :
  (exists j i, (j < n0)%nat /\ (i < n1)%nat /\ a j i = peak) -> (forall j i, (j < n0)%nat -> (i < n1)%nat -> a j i <= peak) ->
  noise_pixels n0 n1 a u v centre radius <> [] ->
  snr_grid (map (fun j => map (fun i => Fin (a j i)) (seq 0 n1)) (seq 0 n0)) (map u (seq 0 n1)) (map v (seq 0 n0)) centre radius
  = ndiv (Fin peak) (Fin (stdR (noise_pixels n0 n1 a u v centre radius))).
Proof.
  intros (j0 & i0 & Hj & Hi & Hp) Hmax Hne. unfold snr_grid. f_equal.
  - replace (concat (map (fun j => map (fun i => Fin (a j i)) (seq 0 n1)) (seq 0 n0))) with (map Fin (concat (map (fun j => map (a j) (seq 0 n1)) (seq 0 n0)))).
    2:{ rewrite concat_map, map_map. f_equal. apply map_ext. intros j. rewrite map_map. reflexivity. }
    set (l := concat (map (fun j => map (a j) (seq 0 n1)) (seq 0 n0))).
    assert (Hin : forall x, In x l <-> exists j i, (j < n0)%nat /\ (i < n1)%nat /\ a j i = x).
    { intros x. unfold l. rewrite in_concat. split.
      - intros (r & Hr & Hx). apply in_map_iff in Hr as (j & <- & Hj'). apply in_map_iff in Hx as (i & <- & Hi'). apply in_seq in Hj', Hi'. exists j, i. repeat split; lia.
      - intros (j & i & Hj' & Hi' & <-). exists (map (a j) (seq 0 n1)). split; [apply in_map_iff; exists j; split; [reflexivity|apply in_seq; lia]|apply in_map; apply in_seq; lia]. }
    assert (Hpl : In peak l) by (apply Hin; eauto). destruct l as [|x t]; [destruct Hpl|]. rewrite nanmax_Fin. f_equal.
    destruct (fold_Rmax_spec t x) as [I L]. apply Hin in I as (j & i & H1 & H2 & E). specialize (Hmax j i H1 H2). specialize (L peak Hpl). lra.
  - rewrite <- nanstd_Fin by assumption. f_equal. unfold map2d, meshgrid. rewrite !map_map.
    rewrite (map_ext _ (fun j => map (fun i => Rltb ((u i - centre) ^ 2 + (v j - centre) ^ 2) (radius ^ 2)) (seq 0 n1))).
    2:{ intros j. rewrite !map_map. reflexivity. }
    rewrite (sel_rows (fun j i => Rltb ((u i - centre) ^ 2 + (v j - centre) ^ 2) (radius ^ 2)) (fun j i => Fin (a j i))).
    unfold noise_pixels. rewrite concat_map, map_map. f_equal. apply map_ext. intros j. rewrite map_map. reflexivity.
Qed.
