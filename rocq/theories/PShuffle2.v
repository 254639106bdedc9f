(** The order of the readings does not matter to the best fit; maps with broken readings. *)
From Coq Require Import String List Permutation ZArith Lia Lra FunctionalExtensionality.
From Verif Require Import PyBase PyLib Num MZernike MMath SMath MAperture MRad MCore MFs MOut MCoMat SOut SFit SBest SMat SRepro SShuffle PNorm PFs PFit PFit2 PFit5 PFit7 PFit9 PPlot4 PRepro PShuffle.
Import ListNotations.
Open Scope R_scope.
Open Scope string_scope.
Open Scope list_scope.

Lemma sum_sq_perm r r' : Permutation r r' -> sum_sq r' = sum_sq r.
Proof. unfold sum_sq. induction 1; cbn [fold_right]; lra. Qed.
Lemma map_snd_combine {A B} (a : list A) (b : list B) : (length b <= length a)%nat -> map snd (combine a b) = b.
Proof. revert a. induction b as [|y b IH]; intros [|x a] H; cbn in *; try lia; try reflexivity. rewrite IH by lia. reflexivity. Qed.
Lemma map_fst_combine {A B} (a : list A) (b : list B) : (length a <= length b)%nat -> map fst (combine a b) = a.
Proof. revert b. induction a as [|y a IH]; intros [|x b] H; cbn in *; try lia; try reflexivity. rewrite IH by lia. reflexivity. Qed.
Lemma points_length (e : list scan) : length (concat (map (fun m => map (pair (fst m)) (snd m)) e)) = length (concat (values e)).
Proof. unfold values. induction e as [|m e IH]; [reflexivity|]. cbn [map concat]. rewrite !app_length, !map_length, IH. reflexivity. Qed.
Lemma labelled_snd illum tel p e wavel N bf r : residual_true illum tel p (values e) (us e) (vs e) (offsets e) wavel N bf = Ok r -> map snd (labelled e r) = r.
Proof. intros H. apply PResid.residual_shape in H. destruct H as [L _]. unfold labelled. apply map_snd_combine. rewrite points_length, L. apply Nat.le_refl. Qed.
Lemma residual_shuffle_all illum tel p e e' wavel N bf r : length e = 3%nat -> shuffled e e' ->
  residual_true illum tel p (values e) (us e) (vs e) (offsets e) wavel N bf = Ok r ->
  exists r', residual_true illum tel p (values e') (us e') (vs e') (offsets e') wavel N bf = Ok r' /\ Permutation (labelled e r) (labelled e' r') /\ Permutation r r' /\ sum_sq r' = sum_sq r.
Proof.
  intros L H E. destruct (residual_shuffle illum tel p e e' wavel N bf r L H E) as (r' & E' & P). exists r'. split; [exact E'|]. split; [exact P|].
  assert (PR : Permutation r r').
  { rewrite <- (labelled_snd _ _ _ _ _ _ _ _ E), <- (labelled_snd _ _ _ _ _ _ _ _ E'). apply Permutation_map, P. }
  split; [exact PR|apply sum_sq_perm, PR].
Qed.
Lemma shuffled_sym e e' : shuffled e e' -> shuffled e' e.
Proof.
  intros (e1 & P & H). destruct (Permutation_Forall2 (Permutation_sym P) H) as (e2 & P2 & H2). exists e2. split; [exact P2|].
  clear - H2. induction H2 as [|m m' l l' [A B] _ IH]; constructor; [|exact IH]. split; [symmetry; exact A|apply Permutation_sym, B].
Qed.
Lemma shuffled_length e e' : shuffled e e' -> length e' = length e.
Proof. intros (e1 & P & H). rewrite (Permutation_length P). symmetry. exact (PFar.Forall2_len _ _ _ H). Qed.

Lemma misfit_shuffle a a' c n e e' x r : observes a e -> observes a' e' -> same_model a a' -> length e = 3%nat -> shuffled e e' ->
  misfit a c n x = Ok r -> exists r', misfit a' c n x = Ok r' /\ Permutation (labelled e r) (labelled e' r') /\ sum_sq r' = sum_sq r.
Proof.
  intros (O1 & O2 & O3 & O4) (O1' & O2' & O3' & O4') (M1 & M2 & M3 & M4 & M5) L H E. unfold misfit, residual in *.
  rewrite O1, O2, O3, O4 in E. rewrite O1', O2', O3', O4', <- M1, <- M2, <- M3, <- M4, <- M5. destruct (params_complete _ _ _ _) as [q|]; [|discriminate]. cbn [bind] in *.
  destruct (residual_shuffle_all _ _ _ e e' _ _ _ r L H E) as (r' & E' & P & _ & Q). exists r'. auto.
Qed.
Lemma best_shuffle a a' c n tol e e' out : observes a e -> observes a' e' -> same_model a a' -> length e = 3%nat -> shuffled e e' ->
  optimal a c n tol out -> exists r', Permutation (labelled e (lo_fun out)) (labelled e' r') /\ sum_sq r' = sum_sq (lo_fun out) /\ forall J, optimal a' c n tol (with_residual out r' J).
Proof.
  intros O O' M L H (F & E & B). destruct (misfit_shuffle a a' c n e e' _ _ O O' M L H E) as (r' & E' & P & Q). exists r'. split; [exact P|]. split; [exact Q|]. intros J.
  split; [exact F|]. split; [exact E'|]. cbn [lo_fun with_residual]. intros x s Fx Ex. rewrite Q.
  assert (M' : same_model a' a) by (destruct M as (M1 & M2 & M3 & M4 & M5); repeat split; congruence).
  destruct (misfit_shuffle a' a c n e' e x s O' O M' ltac:(rewrite (shuffled_length _ _ H); exact L) (shuffled_sym _ _ H) Ex) as (s' & Ex' & _ & Q'). rewrite <- Q'. exact (B x s' Fx Ex').
Qed.

(** Covariances. *)
Lemma py_sum_perm l l' : Permutation l l' -> py_sum l' = py_sum l.
Proof. rewrite !py_sum_fold. induction 1; cbn [fold_right]; lra. Qed.
Lemma seq_nth_map {A B} (f : A -> B) (d : A) l : map (fun k => f (nth k l d)) (seq 0 (length l)) = map f l.
Proof.
  assert (G : forall (l : list A), map (fun k => nth k l d) (seq 0 (length l)) = l).
  { clear. induction l as [|x l IH]; [reflexivity|]. cbn [length seq map nth]. f_equal. rewrite <- seq_shift, map_map. exact IH. }
  rewrite <- (map_map (fun k => nth k l d) f), G. reflexivity.
Qed.
Lemma gram_perm k J J' : Forall (fun row => length row = k) J -> Permutation J J' -> gram J' = gram J.
Proof.
  intros F P. assert (N : ncols J' = ncols J).
  { destruct J as [|x t]; [apply Permutation_nil in P; subst; reflexivity|]. destruct J' as [|x' t']; [apply Permutation_sym, Permutation_nil in P; discriminate|]. cbn [ncols].
    rewrite Forall_forall in F. rewrite (F x) by (left; reflexivity). apply F. eapply Permutation_in; [apply Permutation_sym, P|left; reflexivity]. }
  unfold gram. rewrite N. unfold array. apply map_ext. intros i. apply map_ext. intros j. unfold entries.
  rewrite (seq_nth_map (fun row => nth i row 0 * nth j row 0) [] J'), (seq_nth_map (fun row => nth i row 0 * nth j row 0) [] J). apply py_sum_perm, Permutation_map, P.
Qed.
Lemma map2_self {A B} (f : A -> A -> B) l : map2 f l l = map (fun x => f x x) l.
Proof. induction l as [|x l IH]; cbn [map map2]; [reflexivity|]. rewrite IH. reflexivity. Qed.
Lemma comat_perm k rs rs' J J' p : length J = length rs -> length J' = length rs' -> Forall (fun row => length row = k) J -> Permutation (combine rs J) (combine rs' J') ->
  co_matrices rs' J' p = co_matrices rs J p.
Proof.
  intros L L' F P. assert (PR : Permutation rs rs'). { rewrite <- (map_fst_combine rs J) by lia. rewrite <- (map_fst_combine rs' J') by lia. apply Permutation_map, P. }
  assert (PJ : Permutation J J'). { rewrite <- (map_snd_combine rs J) by lia. rewrite <- (map_snd_combine rs' J') by lia. apply Permutation_map, P. }
  unfold co_matrices. rewrite (gram_perm k J J' F PJ), <- (Permutation_length PR).
  assert (V : vdot rs' rs' = vdot rs rs) by (unfold vdot; rewrite !map2_self; apply py_sum_perm, Permutation_map, PR). rewrite V. reflexivity.
Qed.

(** Broken readings. *)
Lemma norm_same_or_broken maps maps' : Forall2 same_or_broken maps maps' -> norm_rows maps' = norm_rows maps.
Proof.
  intros H. rewrite !norm_rows_eq. induction H as [|m m' l l' (L & H) _ IH]; [reflexivity|]. cbn [mapM]. rewrite IH.
  assert (E : norm_all m' = norm_all m); [|rewrite E; reflexivity]. destruct H as [->|[H H']]; [reflexivity|].
  rewrite (norm_nonfinite m H), (norm_nonfinite m' H'). f_equal. clear - L. revert m L. induction m' as [|x m' IH]; intros [|y m] L; try discriminate L; [reflexivity|]. cbn [map]. f_equal. apply IH. injection L. auto.
Qed.
Lemma shape_same_or_broken maps maps' : Forall2 same_or_broken maps maps' -> map (map (fun _ : num => 0)) maps' = map (map (fun _ => 0)) maps.
Proof.
  intros H. induction H as [|m m' l l' (L & _) _ IH]; [reflexivity|]. cbn [map]. rewrite IH. f_equal. clear - L. revert m L. induction m' as [|x m' IH]; intros [|y m] L; try discriminate L; [reflexivity|]. cbn [map]. f_equal. apply IH. injection L. auto.
Qed.
Lemma residual_broken illum tel p maps maps' u v dz w N bf : Forall2 same_or_broken maps maps' ->
  residual_true illum tel p maps' u v dz w N bf = residual_true illum tel p maps u v dz w N bf.
Proof. intros H. unfold residual_true. rewrite (norm_same_or_broken _ _ H), (shape_same_or_broken _ _ H). reflexivity. Qed.
Lemma objective_broken a b c n : same_setting a b -> Forall2 same_or_broken (fa_beam a) (fa_beam b) -> objective b c n = objective a c n.
Proof.
  intros (E1 & E2 & E3 & E4 & E5 & E6 & E7 & E8 & _) H. apply functional_extensionality. intros p. unfold objective, residual. rewrite <- E1, <- E2, <- E3, <- E4, <- E5, <- E6, <- E7, <- E8.
  destruct (params_complete _ _ _ _) as [q|]; [|reflexivity]. cbn [bind]. apply residual_broken, H.
Qed.
Lemma repeatable_objective orc a b s s' t t' c : wf s -> wf t -> run (fit_zpoly orc a) s = (Ok tt, s') -> run (fit_zpoly orc b) t = (Ok tt, t') ->
  free_number a s -> free_number b t -> configured a s c -> configured b t c -> (forall n, objective b c n = objective a c n) -> fa_tel a = fa_tel b -> fa_fit_previous a = fa_fit_previous b ->
  exists j k, (j <= 100)%nat /\ s (numbered (fit_dir a) (fa_name a) j) = None /\ (k <= 100)%nat /\ t (numbered (fit_dir b) (fa_name b) k) = None /\
  forall n, (1 <= n <= fa_order_max a)%nat -> (n <= fa_order_max b)%nat ->
    same_results n s' (numbered (fit_dir a) (fa_name a) j) (fa_name a) t' (numbered (fit_dir b) (fa_name b) k) (fa_name b).
Proof.
  intros Ws Wt Rs Rt Fs Ft Cs Ct EO ET EP.
  destruct (stored orc a s s' c Ws Rs Fs Cs) as (j & snrs & fl & Hj & Hjn & _ & H). destruct (stored orc b t t' c Wt Rt Ft Ct) as (k & snrs' & fl' & Hk & Hkn & _ & H').
  exists j, k. split; [exact Hj|]. split; [exact Hjn|]. split; [exact Hk|]. split; [exact Hkn|].
  assert (IN : forall n, (1 <= n <= fa_order_max a)%nat -> (n <= fa_order_max b)%nat -> ft_init (nth (n - 1) fl fit0) = ft_init (nth (n - 1) fl' fit0)).
  { induction n as [|n IH]; [lia|]. intros Ha Hb. destruct (H (S n) Ha) as (_ & _ & I & _). destruct (H' (S n) ltac:(lia)) as (_ & _ & I' & _). rewrite I, I'. unfold start_of. rewrite EP.
    destruct n as [|n]; [reflexivity|]. destruct (H (S n) ltac:(lia)) as (A & _). destruct (H' (S n) ltac:(lia)) as (A' & _). specialize (IH ltac:(lia) ltac:(lia)). cbn [Nat.sub] in *. rewrite Nat.sub_0_r in *.
    destruct (fitted_det orc a b c (S n) _ _ (EO _) ET A A' IH) as (E & _). rewrite E. reflexivity. }
  intros n Ha Hb. pose proof (IN n Ha Hb) as I. destruct (H n Ha) as (A & _ & _ & P & W). destruct (H' n ltac:(lia)) as (A' & _ & _ & P' & W').
  destruct (fitted_det orc a b c n _ _ (EO _) ET A A' I) as (E1 & E2 & E3 & E4 & E5 & E6). split.
  - eexists. split; [exact P|]. rewrite I, <- E1. exact P'.
  - assert (K : forall i, (3 <= i < 9)%nat -> _) by exact (fun i Hi => W _ _ (plots_ne_csv n i ltac:(lia)) (order_csv a snrs n _ i Hi)).
    assert (K' : forall i, (3 <= i < 9)%nat -> _) by exact (fun i Hi => W' _ _ (plots_ne_csv n i ltac:(lia)) (order_csv b snrs' n _ i Hi)).
    unfold order_data in K'. rewrite E2, E3, E4, E5, E6 in K'.
    intros file header HI. cbn [In] in HI. repeat (destruct HI as [HI|HI]; [injection HI as <- <-|]); [| | | | | |destruct HI]; eexists; split;
    [exact (K 3%nat ltac:(lia))|exact (K' 3%nat ltac:(lia))|exact (K 4%nat ltac:(lia))|exact (K' 4%nat ltac:(lia))|exact (K 5%nat ltac:(lia))|exact (K' 5%nat ltac:(lia))|
     exact (K 6%nat ltac:(lia))|exact (K' 6%nat ltac:(lia))|exact (K 7%nat ltac:(lia))|exact (K' 7%nat ltac:(lia))|exact (K 8%nat ltac:(lia))|exact (K' 8%nat ltac:(lia))].
Qed.
Lemma fit_broken orc a b s s' t t' c : wf s -> wf t -> run (fit_zpoly orc a) s = (Ok tt, s') -> run (fit_zpoly orc b) t = (Ok tt, t') ->
  free_number a s -> free_number b t -> configured a s c -> configured b t c -> same_setting a b -> Forall2 same_or_broken (fa_beam a) (fa_beam b) ->
  exists j k, (j <= 100)%nat /\ s (numbered (fit_dir a) (fa_name a) j) = None /\ (k <= 100)%nat /\ t (numbered (fit_dir b) (fa_name b) k) = None /\
  forall n, (1 <= n <= fa_order_max a)%nat -> (n <= fa_order_max b)%nat ->
    same_results n s' (numbered (fit_dir a) (fa_name a) j) (fa_name a) t' (numbered (fit_dir b) (fa_name b) k) (fa_name b).
Proof.
  intros Ws Wt Rs Rt Fs Ft Cs Ct ST B. apply (repeatable_objective orc a b s s' t t' c); try assumption; [|apply ST|apply ST]. intros n. apply objective_broken; assumption.
Qed.
Lemma fit_shuffle orc orc' a a' s s' t t' c e e' tol tol' : wf s -> wf t -> run (fit_zpoly orc a) s = (Ok tt, s') -> run (fit_zpoly orc' a') t = (Ok tt, t') ->
  free_number a s -> free_number a' t -> configured a s c -> configured a' t c -> observes a e -> observes a' e' -> same_model a a' -> length e = 3%nat -> shuffled e e' ->
  (forall n start out, (1 <= n <= fa_order_max a)%nat -> length start = (5 + coeffs n)%nat -> answered orc a c n start out -> optimal a c n tol out) ->
  (forall n start out, (1 <= n <= fa_order_max a')%nat -> length start = (5 + coeffs n)%nat -> answered orc' a' c n start out -> optimal a' c n tol' out) ->
  exists j k, (j <= 100)%nat /\ s (numbered (fit_dir a) (fa_name a) j) = None /\ (k <= 100)%nat /\ t (numbered (fit_dir a') (fa_name a') k) = None /\
  forall n, (1 <= n <= fa_order_max a)%nat -> (n <= fa_order_max a')%nat -> exists r r',
    csv_file s' (numbered (fit_dir a) (fa_name a) j) ("res_n" ^^ dec n ^^ ".csv") ("Residual " ^^ fa_name a) (A2 (map (map Fin) r)) /\
    csv_file t' (numbered (fit_dir a') (fa_name a') k) ("res_n" ^^ dec n ^^ ".csv") ("Residual " ^^ fa_name a') (A2 (map (map Fin) r')) /\
    sum_sq (concat r) <= sum_sq (concat r') + tol /\ sum_sq (concat r') <= sum_sq (concat r) + tol'.
Proof.
  intros Ws Wt Rs Rt Fs Ft Cs Ct O O' M L H B B'.
  destruct (stored_together orc a s s' c Ws Rs Fs Cs) as (j & snrs & Hj & Hjn & _ & _ & K). destruct (stored_together orc' a' t t' c Wt Rt Ft Ct) as (k & snrs' & Hk & Hkn & _ & _ & K').
  exists j, k. split; [exact Hj|]. split; [exact Hjn|]. split; [exact Hk|]. split; [exact Hkn|]. intros n Ha Hb.
  destruct (K n Ha) as (rows & out & r & _ & _ & _ & _ & _ & _ & LR & _ & A & _ & C1 & E1 & _). destruct (K' n ltac:(lia)) as (rows' & out' & r' & _ & _ & _ & _ & _ & _ & LR' & _ & A' & _ & C1' & E1' & _).
  assert (Q : optimal a c n tol out) by (refine (B n (map parinit rows) out Ha _ A); rewrite map_length; exact LR).
  assert (Q' : optimal a' c n tol' out') by (refine (B' n (map parinit rows') out' ltac:(lia) _ A'); rewrite map_length; exact LR').
  exists r, r'. split; [exact C1|]. split; [exact C1'|]. rewrite E1, E1'.
  destruct Q as (F & X & Y). destruct Q' as (F' & X' & Y').
  assert (M' : same_model a' a) by (destruct M as (M1 & M2 & M3 & M4 & M5); repeat split; congruence).
  destruct (misfit_shuffle a a' c n e e' _ _ O O' M L H X) as (q & Eq & _ & Sq).
  destruct (misfit_shuffle a' a c n e' e _ _ O' O M' ltac:(rewrite (shuffled_length _ _ H); exact L) (shuffled_sym _ _ H) X') as (q' & Eq' & _ & Sq').
  specialize (Y _ _ F' Eq'). specialize (Y' _ _ F Eq). rewrite Sq' in Y. rewrite Sq in Y'. split; assumption.
Qed.
