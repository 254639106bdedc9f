(** Two fits of the same maps give the same results. *)
From Coq Require Import String List ZArith Lia Lra FunctionalExtensionality.
From Verif Require Import PyBase PyLib Num MZernike MMath SMath MAperture MRad MCore MFs MOut SOut SFit SRepro PNorm PFs PFit PFit2 PFit5 PFit7 PFit9.
Import ListNotations.
Open Scope R_scope.
Open Scope string_scope.
Open Scope list_scope.

Lemma norm_calibrated maps maps' : recalibrated maps maps' -> norm_rows maps' = norm_rows maps.
Proof.
  intros H. rewrite !norm_rows_eq. induction H as [|m m' l l' (g & o & G & ->) _ IH]; [reflexivity|]. cbn [mapM]. rewrite norm_affine by exact G. rewrite IH. reflexivity.
Qed.
Lemma shape_calibrated maps maps' : recalibrated maps maps' -> map (map (fun _ => 0)) maps' = map (map (fun _ => 0)) maps.
Proof. intros H. induction H as [|m m' l l' (g & o & G & ->) _ IH]; [reflexivity|]. cbn [map]. rewrite map_map, IH. reflexivity. Qed.
Lemma residual_calibrated illum tel fixed ex k p maps maps' u v dz w N bf : recalibrated maps maps' ->
  residual illum tel fixed ex k p maps' u v dz w N bf = residual illum tel fixed ex k p maps u v dz w N bf.
Proof. intros H. unfold residual, residual_true. rewrite (norm_calibrated _ _ H), (shape_calibrated _ _ H). reflexivity. Qed.
Lemma objective_same a b c n : same_setting a b -> recalibrated (fa_beam a) (fa_beam b) -> objective b c n = objective a c n.
Proof.
  intros (E1 & E2 & E3 & E4 & E5 & E6 & E7 & E8 & _) H. apply functional_extensionality. intros p. unfold objective. rewrite (residual_calibrated _ _ _ _ _ _ _ _ _ _ _ _ _ _ H), E1, E2, E3, E4, E5, E6, E7, E8. reflexivity.
Qed.
Lemma fitted_det orc a b c n f f' : objective b c n = objective a c n -> fa_tel a = fa_tel b -> fitted_ok orc a c n f -> fitted_ok orc b c n f' -> ft_init f = ft_init f' ->
  ft_sol f' = ft_sol f /\ ft_out f' = ft_out f /\ ft_res f' = ft_res f /\ ft_cov f' = ft_cov f /\ ft_cor f' = ft_cor f /\ ft_phase f' = ft_phase f.
Proof.
  intros EO Et (A1 & A2 & A3 & A4 & A5 & A6 & (cc & idx & A7 & A8 & A9 & A10) & (xy & A11) & _) (B1 & B2 & B3 & B4 & B5 & B6 & (cc' & idx' & B7 & B8 & B9 & B10) & (xy' & B11) & _) E.
  rewrite EO in B4. rewrite <- Et in B11.
  rewrite <- E, A1 in B1. apply Ok_inj in B1. rewrite A2 in B2. apply Ok_inj in B2. rewrite A3 in B3. apply Ok_inj in B3. rewrite <- B1, <- B2, <- B3, A4 in B4. apply Ok_inj in B4.
  rewrite <- B4 in B5, B6, B7. rewrite A5 in B5. apply Ok_inj in B5. rewrite A6 in B6. apply Ok_inj in B6. rewrite <- B1, A7 in B7. apply Ok_inj in B7. rewrite A8 in B8. apply Ok_inj in B8.
  rewrite <- B7, <- B8 in B9, B10. rewrite A9 in B9. apply Ok_inj in B9. rewrite A10 in B10. apply Ok_inj in B10. rewrite <- B5, A11 in B11. injection B11. intros. auto 10.
Qed.
Lemma fitted_same orc a b c n f f' : same_setting a b -> recalibrated (fa_beam a) (fa_beam b) -> fitted_ok orc a c n f -> fitted_ok orc b c n f' -> ft_init f = ft_init f' ->
  ft_sol f' = ft_sol f /\ ft_out f' = ft_out f /\ ft_res f' = ft_res f /\ ft_cov f' = ft_cov f /\ ft_cor f' = ft_cor f /\ ft_phase f' = ft_phase f.
Proof. intros S R. apply fitted_det; [exact (objective_same a b c n S R)|apply S]. Qed.
Lemma repeatable orc a b s s' t t' c : wf s -> wf t -> run (fit_zpoly orc a) s = (Ok tt, s') -> run (fit_zpoly orc b) t = (Ok tt, t') ->
  free_number a s -> free_number b t -> configured a s c -> configured b t c -> same_setting a b -> recalibrated (fa_beam a) (fa_beam b) ->
  exists j k, (j <= 100)%nat /\ s (numbered (fit_dir a) (fa_name a) j) = None /\ (k <= 100)%nat /\ t (numbered (fit_dir b) (fa_name b) k) = None /\
  forall n, (1 <= n <= fa_order_max a)%nat -> (n <= fa_order_max b)%nat ->
    same_results n s' (numbered (fit_dir a) (fa_name a) j) (fa_name a) t' (numbered (fit_dir b) (fa_name b) k) (fa_name b).
Proof.
  intros Ws Wt Rs Rt Fs Ft Cs Ct ST R.
  destruct (stored orc a s s' c Ws Rs Fs Cs) as (j & snrs & fl & Hj & Hjn & _ & H). destruct (stored orc b t t' c Wt Rt Ft Ct) as (k & snrs' & fl' & Hk & Hkn & _ & H').
  exists j, k. split; [exact Hj|]. split; [exact Hjn|]. split; [exact Hk|]. split; [exact Hkn|].
  assert (IN : forall n, (1 <= n <= fa_order_max a)%nat -> (n <= fa_order_max b)%nat -> ft_init (nth (n - 1) fl fit0) = ft_init (nth (n - 1) fl' fit0)).
  { induction n as [|n IH]; [lia|]. intros Ha Hb. destruct (H (S n) Ha) as (_ & _ & I & _). destruct (H' (S n) ltac:(lia)) as (_ & _ & I' & _). rewrite I, I'. assert (EP : fa_fit_previous a = fa_fit_previous b) by apply ST. unfold start_of. rewrite EP.
    destruct n as [|n]; [reflexivity|]. destruct (H (S n) ltac:(lia)) as (A & _). destruct (H' (S n) ltac:(lia)) as (A' & _). specialize (IH ltac:(lia) ltac:(lia)). cbn [Nat.sub] in *. rewrite Nat.sub_0_r in *.
    destruct (fitted_same orc a b c (S n) _ _ ST R A A' IH) as (E & _). rewrite E. reflexivity. }
  intros n Ha Hb. pose proof (IN n Ha Hb) as I. destruct (H n Ha) as (A & _ & _ & P & W). destruct (H' n ltac:(lia)) as (A' & _ & _ & P' & W').
  destruct (fitted_same orc a b c n _ _ ST R A A' I) as (E1 & E2 & E3 & E4 & E5 & E6). split.
  - eexists. split; [exact P|]. rewrite I, <- E1. exact P'.
  - assert (K : forall i, (3 <= i < 9)%nat -> _) by exact (fun i Hi => W _ _ (plots_ne_csv n i ltac:(lia)) (order_csv a snrs n _ i Hi)).
    assert (K' : forall i, (3 <= i < 9)%nat -> _) by exact (fun i Hi => W' _ _ (plots_ne_csv n i ltac:(lia)) (order_csv b snrs' n _ i Hi)).
    unfold order_data in K'. rewrite E2, E3, E4, E5, E6 in K'.
    intros file header HI. cbn [In] in HI. repeat (destruct HI as [HI|HI]; [injection HI as <- <-|]); [| | | | | |destruct HI]; eexists; split;
    [exact (K 3%nat ltac:(lia))|exact (K' 3%nat ltac:(lia))|exact (K 4%nat ltac:(lia))|exact (K' 4%nat ltac:(lia))|exact (K 5%nat ltac:(lia))|exact (K' 5%nat ltac:(lia))|
     exact (K 6%nat ltac:(lia))|exact (K' 6%nat ltac:(lia))|exact (K 7%nat ltac:(lia))|exact (K' 7%nat ltac:(lia))|exact (K 8%nat ltac:(lia))|exact (K' 8%nat ltac:(lia))].
Qed.
