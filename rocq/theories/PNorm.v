(** C13, C14: norm. *)
From Verif Require Import PyBase PyLib Num MMath SMath PPhase.
Open Scope R_scope.

Lemma nmin_Fin a b : nmin (Fin a) (Fin b) = Fin (Rmin a b).
Proof. cbn. unfold Rleb, Rmin. destruct (Rle_dec a b); reflexivity. Qed.
Lemma nmax_Fin a b : nmax (Fin a) (Fin b) = Fin (Rmax a b).
Proof. cbn. unfold Rleb, Rmax. destruct (Rle_dec a b); reflexivity. Qed.

Lemma fold_nmin_Fin t x : fold_left nmin (map Fin t) (Fin x) = Fin (fold_left Rmin t x).
Proof. revert x; induction t as [|y t IH]; intros x; [reflexivity|]. cbn [map fold_left]. rewrite nmin_Fin. apply IH. Qed.
Lemma fold_nmax_Fin t x : fold_left nmax (map Fin t) (Fin x) = Fin (fold_left Rmax t x).
Proof. revert x; induction t as [|y t IH]; intros x; [reflexivity|]. cbn [map fold_left]. rewrite nmax_Fin. apply IH. Qed.

Lemma fold_Rmin_spec t x : In (fold_left Rmin t x) (x :: t) /\ forall y, In y (x :: t) -> fold_left Rmin t x <= y.
Proof.
  revert x; induction t as [|z t IH]; intros x; cbn [fold_left].
  - split; [left; reflexivity|]. intros y [<-|[]]; lra.
  - destruct (IH (Rmin x z)) as [H1 H2]. split.
    + destruct H1 as [H1|H1]; [|right; right; exact H1]. rewrite <- H1. unfold Rmin. destruct (Rle_dec x z); [left|right; left]; reflexivity.
    + intros y [<-|[<-|Hy]].
      * eapply Rle_trans; [apply H2; left; reflexivity|apply Rmin_l].
      * eapply Rle_trans; [apply H2; left; reflexivity|apply Rmin_r].
      * apply H2; right; exact Hy.
Qed.
Lemma fold_Rmax_spec t x : In (fold_left Rmax t x) (x :: t) /\ forall y, In y (x :: t) -> y <= fold_left Rmax t x.
Proof.
  revert x; induction t as [|z t IH]; intros x; cbn [fold_left].
  - split; [left; reflexivity|]. intros y [<-|[]]; lra.
  - destruct (IH (Rmax x z)) as [H1 H2]. split.
    + destruct H1 as [H1|H1]; [|right; right; exact H1]. rewrite <- H1. unfold Rmax. destruct (Rle_dec x z); [right; left|left]; reflexivity.
    + intros y [<-|[<-|Hy]].
      * eapply Rle_trans; [apply Rmax_l|apply H2; left; reflexivity].
      * eapply Rle_trans; [apply Rmax_r|apply H2; left; reflexivity].
      * apply H2; right; exact Hy.
Qed.

(** Finite maps: the closed form. *)
Lemma norm_finite v : v <> [] -> exists mn mx, In mn v /\ In mx v /\ (forall x, In x v -> mn <= x <= mx) /\
  norm_all (map Fin v) = Ok (map (fun x => if Req_EM_T mn mx then 0 else (x - mn) / (mx - mn)) v).
Proof.
  destruct v as [|x t]; [congruence|]. intros _.
  destruct (fold_Rmin_spec t x) as [I1 L1]. destruct (fold_Rmax_spec t x) as [I2 L2].
  exists (fold_left Rmin t x), (fold_left Rmax t x). split; [exact I1|]. split; [exact I2|].
  split; [intros y Hy; split; auto|].
  unfold norm_all. change (np_min (map Fin (x :: t))) with (Ok (fold_left nmin (map Fin t) (Fin x))).
  change (np_max (map Fin (x :: t))) with (Ok (fold_left nmax (map Fin t) (Fin x))).
  rewrite fold_nmin_Fin, fold_nmax_Fin. cbn [bind]. f_equal. rewrite map_map.
  assert (Hle : fold_left Rmin t x <= fold_left Rmax t x) by (eapply Rle_trans; [apply L1|apply L2]; left; reflexivity).
  apply map_ext_in. intros y Hy. unfold norm_by. cbn.
  destruct (Req_EM_T (fold_left Rmin t x) (fold_left Rmax t x)) as [E|E].
  - destruct (Req_EM_T _ 0) as [_|N]; [|exfalso; lra].
    assert (y = fold_left Rmin t x) by (specialize (L1 y Hy); specialize (L2 y Hy); lra).
    unfold inf_sign. destruct (Rlt_dec 0 _); [exfalso; lra|]. destruct (Rlt_dec _ 0); [exfalso; lra|]. reflexivity.
  - destruct (Req_EM_T _ 0) as [N|_]; [exfalso; lra|]. cbn. f_equal; lra.
Qed.

Definition finiteb (p : num) : bool := match p with Fin _ => true | _ => false end.

Lemma finite_list P : (exists v, P = map Fin v) \/ (exists p, In p P /\ ~ finite p).
Proof.
  induction P as [|p P IH]; [left; exists []; reflexivity|].
  destruct IH as [[v ->]|(q & Hq & Nq)].
  - destruct p as [r| | |]; [left; exists (r :: v); reflexivity| | |]; right; eexists; (split; [left; reflexivity|]); cbn; auto.
  - right. exists q. split; [right; exact Hq|exact Nq].
Qed.

(** Fold with NaN, and with infinities. *)
Lemma fold_nmin_nan t : fold_left nmin t NaN = NaN.
Proof. induction t; [reflexivity|exact IHt]. Qed.
Lemma fold_nmax_nan t : fold_left nmax t NaN = NaN.
Proof. induction t; [reflexivity|exact IHt]. Qed.
Lemma nmin_NaN_r a : nmin a NaN = NaN. Proof. destruct a; reflexivity. Qed.
Lemma nmax_NaN_r a : nmax a NaN = NaN. Proof. destruct a; reflexivity. Qed.
Lemma fold_nmin_in_nan t x : In NaN (x :: t) -> fold_left nmin t x = NaN.
Proof.
  revert x; induction t as [|y t IH]; intros x H.
  - destruct H as [->|[]]; reflexivity.
  - cbn [fold_left]. destruct H as [->|[->|H]].
    + change (nmin NaN y) with NaN. apply fold_nmin_nan.
    + rewrite nmin_NaN_r. apply fold_nmin_nan.
    + apply IH. right; exact H.
Qed.
Lemma fold_nmax_in_nan t x : In NaN (x :: t) -> fold_left nmax t x = NaN.
Proof.
  revert x; induction t as [|y t IH]; intros x H.
  - destruct H as [->|[]]; reflexivity.
  - cbn [fold_left]. destruct H as [->|[->|H]].
    + change (nmax NaN y) with NaN. apply fold_nmax_nan.
    + rewrite nmax_NaN_r. apply fold_nmax_nan.
    + apply IH. right; exact H.
Qed.
(** Without NaN, a minus infinity is the minimum and a plus infinity the maximum. *)
Lemma nmin_ninf_l a : a <> NaN -> nmin NInf a = NInf. Proof. destruct a; try reflexivity; congruence. Qed.
Lemma nmin_ninf_r a : a <> NaN -> nmin a NInf = NInf. Proof. destruct a; try reflexivity; congruence. Qed.
Lemma nmax_pinf_l a : a <> NaN -> nmax PInf a = PInf. Proof. destruct a; try reflexivity; congruence. Qed.
Lemma nmax_pinf_r a : a <> NaN -> nmax a PInf = PInf. Proof. destruct a; try reflexivity; congruence. Qed.
Lemma nmin_notnan a b : a <> NaN -> b <> NaN -> nmin a b <> NaN.
Proof. destruct a, b; cbn; try congruence. destruct (Rleb r r0); congruence. Qed.
Lemma nmax_notnan a b : a <> NaN -> b <> NaN -> nmax a b <> NaN.
Proof. destruct a, b; cbn; try congruence. destruct (Rleb r r0); congruence. Qed.
Lemma fold_nmin_ninf t x : (forall p, In p (x :: t) -> p <> NaN) -> In NInf (x :: t) -> fold_left nmin t x = NInf.
Proof.
  revert x; induction t as [|y t IH]; intros x N H.
  - destruct H as [->|[]]; reflexivity.
  - cbn [fold_left]. assert (x <> NaN) by (apply N; left; reflexivity). assert (y <> NaN) by (apply N; right; left; reflexivity).
    apply IH.
    + intros p [<-|Hp]; [apply nmin_notnan; assumption|apply N; right; right; exact Hp].
    + destruct H as [->|[->|H]]; [left; apply nmin_ninf_l; assumption|left; apply nmin_ninf_r; assumption|right; exact H].
Qed.
Lemma fold_nmax_pinf t x : (forall p, In p (x :: t) -> p <> NaN) -> In PInf (x :: t) -> fold_left nmax t x = PInf.
Proof.
  revert x; induction t as [|y t IH]; intros x N H.
  - destruct H as [->|[]]; reflexivity.
  - cbn [fold_left]. assert (x <> NaN) by (apply N; left; reflexivity). assert (y <> NaN) by (apply N; right; left; reflexivity).
    apply IH.
    + intros p [<-|Hp]; [apply nmax_notnan; assumption|apply N; right; right; exact Hp].
    + destruct H as [->|[->|H]]; [left; apply nmax_pinf_l; assumption|left; apply nmax_pinf_r; assumption|right; exact H].
Qed.
Lemma fold_nmin_mem t x : (forall p, In p (x :: t) -> p <> NaN) -> fold_left nmin t x <> NaN.
Proof.
  revert x; induction t as [|y t IH]; intros x N; [apply N; left; reflexivity|]. cbn [fold_left]. apply IH.
  intros p [<-|Hp]; [apply nmin_notnan; apply N; [left|right; left]; reflexivity|apply N; right; right; exact Hp].
Qed.
Lemma fold_nmax_mem t x : (forall p, In p (x :: t) -> p <> NaN) -> fold_left nmax t x <> NaN.
Proof.
  revert x; induction t as [|y t IH]; intros x N; [apply N; left; reflexivity|]. cbn [fold_left]. apply IH.
  intros p [<-|Hp]; [apply nmax_notnan; apply N; [left|right; left]; reflexivity|apply N; right; right; exact Hp].
Qed.

Lemma norm_by_nan_mn mx p : norm_by NaN mx p = 0.
Proof. destruct mx, p; reflexivity. Qed.

Lemma norm_by_ninf mx p : mx <> NaN -> norm_by NInf mx p = 0.
Proof. intros H. destruct mx, p; try reflexivity; congruence. Qed.
Lemma norm_by_pinf mn p : mn <> NaN -> p <> NInf -> norm_by mn PInf p = 0.
Proof. intros H H'. destruct mn, p; try reflexivity; congruence. Qed.

(** A map with any non-finite value becomes all zeros. *)
Lemma norm_nonfinite P : (exists p, In p P /\ ~ finite p) -> norm_all P = Ok (map (fun _ => 0) P).
Proof.
  intros (q & Hq & Nq). destruct P as [|x t]; [destruct Hq|]. unfold norm_all, np_min, np_max. cbn [bind]. f_equal.
  assert (Hd : forall a b : num, {a = b} + {a <> b}).
  { intros a b. destruct a, b; try (left; reflexivity); try (right; congruence). destruct (Req_EM_T r r0); [left; f_equal; assumption|right; congruence]. }
  destruct (in_dec Hd NaN (x :: t)) as [HN|HN].
  { apply map_ext_in. intros p _. rewrite (fold_nmin_in_nan t x HN). apply norm_by_nan_mn. }
  assert (N : forall p, In p (x :: t) -> p <> NaN) by (intros p Hp ->; exact (HN Hp)).
  destruct (in_dec Hd NInf (x :: t)) as [HI|HI].
  { apply map_ext_in. intros p _. rewrite (fold_nmin_ninf t x N HI). apply norm_by_ninf. apply fold_nmax_mem; assumption. }
  assert (HP : In PInf (x :: t)).
  { destruct q; cbn in Nq; [exfalso; apply Nq; exact I|exact Hq|contradiction|contradiction]. }
  apply map_ext_in. intros p Hp. rewrite (fold_nmax_pinf t x N HP). apply norm_by_pinf; [apply fold_nmin_mem; assumption|].
  intros ->. exact (HI Hp).
Qed.

Lemma norm_empty : norm_all [] = Err ValueError. Proof. reflexivity. Qed.

Lemma norm_range P Q : norm_all P = Ok Q -> length Q = length P /\ forall q, In q Q -> 0 <= q <= 1.
Proof.
  intros E. destruct (finite_list P) as [[v ->]|H].
  - destruct v as [|x t]; [discriminate|].
    destruct (norm_finite (x :: t) ltac:(congruence)) as (mn & mx & I1 & I2 & B & E'). rewrite E in E'. apply Ok_inj in E'. subst Q.
    split; [rewrite !map_length; reflexivity|]. intros q Hq. apply in_map_iff in Hq as (y & <- & Hy). specialize (B y Hy).
    destruct (Req_EM_T mn mx); [lra|]. split.
    + apply Rmult_le_pos; [lra|]. left; apply Rinv_0_lt_compat; lra.
    + apply Rmult_le_reg_r with (mx - mn); [lra|]. unfold Rdiv. rewrite Rmult_assoc, Rinv_l by lra. lra.
  - rewrite norm_nonfinite in E by assumption. apply Ok_inj in E. subst Q. split; [rewrite map_length; reflexivity|].
    intros q Hq. apply in_map_iff in Hq as (y & <- & _). lra.
Qed.

Lemma norm_onto v a b : In a v -> In b v -> a < b -> exists mn mx, In mn v /\ In mx v /\ mn < mx /\
  (forall x, In x v -> mn <= x <= mx) /\ norm_all (map Fin v) = Ok (map (fun x => (x - mn) / (mx - mn)) v).
Proof.
  intros Ha Hb Hab. destruct (norm_finite v ltac:(destruct v; [destruct Ha|congruence])) as (mn & mx & I1 & I2 & B & E).
  exists mn, mx. assert (mn < mx) by (pose proof (B a Ha); pose proof (B b Hb); lra).
  split; [exact I1|]. split; [exact I2|]. split; [assumption|]. split; [exact B|]. rewrite E. f_equal. apply map_ext. intros x.
  destruct (Req_EM_T mn mx); [exfalso; lra|reflexivity].
Qed.

Lemma norm_constant v c : v <> [] -> (forall x, In x v -> x = c) -> norm_all (map Fin v) = Ok (map (fun _ => 0) v).
Proof.
  intros Hv H. destruct (norm_finite v Hv) as (mn & mx & I1 & I2 & _ & E). rewrite E. f_equal. apply map_ext. intros x.
  rewrite (H mn I1), (H mx I2). destruct (Req_EM_T c c); [reflexivity|congruence].
Qed.

(** Uniqueness of the extremes. *)
Lemma norm_by_extremes v mn mx : In mn v -> In mx v -> (forall x, In x v -> mn <= x <= mx) ->
  norm_all (map Fin v) = Ok (map (fun x => if Req_EM_T mn mx then 0 else (x - mn) / (mx - mn)) v).
Proof.
  intros I1 I2 B. destruct (norm_finite v ltac:(destruct v; [destruct I1|congruence])) as (mn' & mx' & I1' & I2' & B' & E).
  assert (mn = mn') by (pose proof (B mn' I1'); pose proof (B' mn I1); lra).
  assert (mx = mx') by (pose proof (B mx' I2'); pose proof (B' mx I2); lra). subst. exact E.
Qed.

(** C14: gain and offset. *)

Lemma affine_nonfinite g o p : 0 < g -> ~ finite p -> ~ finite (affine g o p).
Proof.
  intros Hg H. destruct p; cbn in H |- *; try (exfalso; apply H; exact I); unfold affine, nmul, inf_sign; destruct (Rlt_dec 0 g); cbn; auto.
Qed.

Lemma norm_affine g o P : 0 < g -> norm_all (map (affine g o) P) = norm_all P.
Proof.
  intros Hg. destruct (finite_list P) as [[v ->]|(p & Hp & Np)].
  - rewrite map_map. destruct v as [|x t]; [reflexivity|]. set (v := x :: t).
    destruct (norm_finite v ltac:(unfold v; congruence)) as (mn & mx & I1 & I2 & B & E). rewrite E.
    replace (map (fun x => affine g o (Fin x)) v) with (map Fin (map (fun x => g * x + o) v)) by (rewrite map_map; reflexivity).
    rewrite (norm_by_extremes (map (fun x => g * x + o) v) (g * mn + o) (g * mx + o)).
    + f_equal. rewrite map_map. apply map_ext. intros y.
      destruct (Req_EM_T mn mx) as [->|Hne].
      * destruct (Req_EM_T (g * mx + o) (g * mx + o)); [reflexivity|congruence].
      * destruct (Req_EM_T (g * mn + o) (g * mx + o)) as [E'|_].
        -- exfalso; apply Hne. apply Rmult_eq_reg_l with g; lra.
        -- field. split; [lra|]. intros E'. apply Hne. apply Rmult_eq_reg_l with g; lra.
    + apply in_map with (f := fun x => g * x + o); assumption.
    + apply in_map with (f := fun x => g * x + o); assumption.
    + intros y Hy. apply in_map_iff in Hy as (z & <- & Hz). specialize (B z Hz). split; nra.
  - rewrite (norm_nonfinite P) by eauto. rewrite norm_nonfinite.
    + rewrite map_map. reflexivity.
    + exists (affine g o p). split; [apply in_map; assumption|apply affine_nonfinite; assumption].
Qed.

Lemma norm_idempotent P Q : norm_all P = Ok Q -> norm_all (map Fin Q) = Ok Q.
Proof.
  intros E. destruct (finite_list P) as [[v ->]|H].
  - destruct v as [|x t]; [discriminate|]. set (v := x :: t) in *.
    destruct (norm_finite v ltac:(unfold v; congruence)) as (mn & mx & I1 & I2 & B & E'). rewrite E in E'. apply Ok_inj in E'. subst Q.
    destruct (Req_EM_T mn mx) as [->|Hne].
    + rewrite (norm_constant _ 0); [rewrite map_map; reflexivity|unfold v; discriminate|].
      intros y Hy. apply in_map_iff in Hy as (z & <- & _). reflexivity.
    + assert (mn < mx) by (specialize (B mn I1); lra).
      rewrite (norm_by_extremes _ 0 1).
      * f_equal. rewrite map_map. apply map_ext. intros y. destruct (Req_EM_T 0 1); [lra|]. field. lra.
      * apply in_map_iff. exists mn. split; [field; lra|exact I1].
      * apply in_map_iff. exists mx. split; [field; lra|exact I2].
      * intros q Hq. destruct (norm_range _ _ E) as [_ HR]. apply HR; exact Hq.
  - rewrite norm_nonfinite in E by assumption. apply Ok_inj in E. subst Q.
    destruct P as [|p P]; [destruct H as (? & [] & _)|].
    rewrite (norm_constant _ 0); [rewrite map_map; reflexivity|discriminate|].
    intros y Hy. apply in_map_iff in Hy as (z & <- & _). reflexivity.
Qed.

(** axis=1 is norm of every row, axis=0 norm of every column. *)
Lemma norm_rows_eq P : norm_rows P = mapM norm_all P.
Proof.
  assert (H : forall P, norm_rows P = mapM norm_all P); [|apply H]. clear P.
  induction P as [|r P IH]; [reflexivity|]. unfold norm_rows in *. cbn [mapM].
  unfold norm_all at 1. destruct r as [|x t]; [reflexivity|].
  cbn [np_min np_max bind]. rewrite <- IH.
  destruct (mapM np_min P) as [mns|e]; cbn [bind]; [|reflexivity].
  destruct (mapM np_max P) as [mxs|e]; cbn [bind]; [|reflexivity]. reflexivity.
Qed.


Lemma fold_map2_nth (f : num -> num -> num) rs r j m : length r = m -> (forall row, In row rs -> length row = m) -> (j < m)%nat ->
  length (fold_left (map2 f) rs r) = m /\ nth j (fold_left (map2 f) rs r) NaN = fold_left f (map (fun row => nth j row NaN) rs) (nth j r NaN).
Proof.
  intros Hr H Hj. revert r Hr. induction rs as [|s rs IH]; intros r Hr; [split; [exact Hr|reflexivity]|].
  cbn [fold_left map].
  assert (Hs : length s = m) by (apply H; left; reflexivity).
  destruct (IH ltac:(intros row Hrow; apply H; right; exact Hrow) (map2 f r s)) as [L E].
  - rewrite map2_length; lia.
  - split; [exact L|]. rewrite E. rewrite (map2_nth f r s j NaN NaN NaN) by lia. reflexivity.
Qed.

Lemma norm_cols_cols P m Q j : rect m P -> norm_cols P = Ok Q -> (j < m)%nat ->
  rect m Q /\ length Q = length P /\ norm_all (col NaN j P) = Ok (col 0 j Q).
Proof.
  intros HR E Hj. destruct P as [|r rs]; [discriminate|]. cbn [norm_cols] in E. apply Ok_inj in E. subst Q.
  assert (Hr : length r = m) by (apply HR; left; reflexivity).
  assert (Hrs : forall row, In row rs -> length row = m) by (intros; apply HR; right; assumption).
  destruct (fold_map2_nth nmin rs r j m Hr Hrs Hj) as [L1 E1].
  destruct (fold_map2_nth nmax rs r j m Hr Hrs Hj) as [L2 E2].
  set (mns := fold_left (map2 nmin) rs r) in *. set (mxs := fold_left (map2 nmax) rs r) in *.
  assert (Lc : length (combine mns mxs) = m) by (rewrite combine_length; lia).
  change (map2 (fun '(mn, mx) p => norm_by mn mx p) (combine mns mxs) r :: map (fun row => map2 (fun '(mn, mx) p => norm_by mn mx p) (combine mns mxs) row) rs)
    with (map (fun row => map2 (fun '(mn, mx) p => norm_by mn mx p) (combine mns mxs) row) (r :: rs)).
  split; [|split].
  - intros row Hrow. apply in_map_iff in Hrow as (s & <- & Hs). rewrite map2_length; rewrite Lc; [reflexivity|symmetry; apply HR; exact Hs].
  - rewrite map_length. reflexivity.
  - unfold norm_all, col.
    change (np_min (map (fun row => nth j row NaN) (r :: rs))) with (Ok (fold_left nmin (map (fun row => nth j row NaN) rs) (nth j r NaN))).
    change (np_max (map (fun row => nth j row NaN) (r :: rs))) with (Ok (fold_left nmax (map (fun row => nth j row NaN) rs) (nth j r NaN))).
    rewrite <- E1, <- E2. cbn [bind]. f_equal. rewrite !map_map. apply map_ext_in. intros row Hrow.
    rewrite (map2_nth _ (combine mns mxs) row j (NaN, NaN) NaN 0) by (rewrite Lc; first [exact Hj|symmetry; apply HR; exact Hrow]).
    rewrite combine_nth by lia. reflexivity.
Qed.
