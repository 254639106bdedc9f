(** The order of the readings does not matter to the residual. *)
From Coq Require Import List Permutation Lia Lra.
From Verif Require Import PyBase PyLib Num MMath MAperture MRad MCore MFs MOut SFit SBest SShuffle PNorm PPlot4 PResid PFar.
From Coquelicot Require Import Complex.
Import ListNotations.
Open Scope R_scope.
Open Scope list_scope.

Lemma nmin_comm a b : nmin a b = nmin b a.
Proof. destruct a, b; try reflexivity. rewrite !nmin_Fin, Rmin_comm. reflexivity. Qed.
Lemma nmax_comm a b : nmax a b = nmax b a.
Proof. destruct a, b; try reflexivity. rewrite !nmax_Fin, Rmax_comm. reflexivity. Qed.
Lemma nmin_FP x : nmin (Fin x) PInf = Fin x. Proof. reflexivity. Qed.
Lemma nmin_PF x : nmin PInf (Fin x) = Fin x. Proof. reflexivity. Qed.
Lemma nmin_FN x : nmin (Fin x) NInf = NInf. Proof. reflexivity. Qed.
Lemma nmin_NF x : nmin NInf (Fin x) = NInf. Proof. reflexivity. Qed.
Lemma nmax_FP x : nmax (Fin x) PInf = PInf. Proof. reflexivity. Qed.
Lemma nmax_PF x : nmax PInf (Fin x) = PInf. Proof. reflexivity. Qed.
Lemma nmax_FN x : nmax (Fin x) NInf = Fin x. Proof. reflexivity. Qed.
Lemma nmax_NF x : nmax NInf (Fin x) = Fin x. Proof. reflexivity. Qed.
Lemma nmin_assoc a b c : nmin (nmin a b) c = nmin a (nmin b c).
Proof. destruct a, b, c; try reflexivity; rewrite ?nmin_Fin, ?nmin_FP, ?nmin_PF, ?nmin_FN, ?nmin_NF, ?nmin_Fin, ?Rmin_assoc; reflexivity. Qed.
Lemma nmax_assoc a b c : nmax (nmax a b) c = nmax a (nmax b c).
Proof. destruct a, b, c; try reflexivity; rewrite ?nmax_Fin, ?nmax_FP, ?nmax_PF, ?nmax_FN, ?nmax_NF, ?nmax_Fin, ?Rmax_assoc; reflexivity. Qed.
Lemma fold_perm {A} (f : A -> A -> A) (C : forall a b, f a b = f b a) (As : forall a b c, f (f a b) c = f a (f b c)) l l' x :
  Permutation l l' -> fold_left f l x = fold_left f l' x.
Proof.
  intros P. revert x. induction P; intros z; cbn [fold_left]; [reflexivity|apply IHP| |rewrite IHP1; apply IHP2].
  rewrite !As, (C y x). reflexivity.
Qed.
Lemma fold_out {A} (f : A -> A -> A) (As : forall a b c, f (f a b) c = f a (f b c)) l x y : fold_left f l (f x y) = f x (fold_left f l y).
Proof. revert y. induction l as [|z l IH]; intros y; cbn [fold_left]; [reflexivity|]. rewrite As. apply IH. Qed.
Lemma fold_head {A} (f : A -> A -> A) (C : forall a b, f a b = f b a) (As : forall a b c, f (f a b) c = f a (f b c)) t t' x x' :
  Permutation (x :: t) (x' :: t') -> fold_left f t x = fold_left f t' x'.
Proof.
  intros P.
  assert (G : forall l l' : list A, Permutation l l' -> match l, l' with x :: t, x' :: t' => fold_left f t x = fold_left f t' x' | [], [] => True | _, _ => False end).
  { clear P x x' t t'. intros l l' P. induction P.
    - exact I.
    - apply fold_perm; assumption.
    - cbn [fold_left]. rewrite (C y x). reflexivity.
    - destruct l as [|a l]; destruct l' as [|b l']; destruct l'' as [|d l'']; try tauto. congruence. }
  exact (G _ _ P).
Qed.
Lemma np_min_perm l l' : Permutation l l' -> np_min l' = np_min l.
Proof.
  intros P. destruct l as [|x t]; [apply Permutation_nil in P; subst; reflexivity|]. destruct l' as [|x' t']; [apply Permutation_sym, Permutation_nil in P; discriminate|].
  cbn. rewrite (fold_head nmin nmin_comm nmin_assoc _ _ _ _ P). reflexivity.
Qed.
Lemma np_max_perm l l' : Permutation l l' -> np_max l' = np_max l.
Proof.
  intros P. destruct l as [|x t]; [apply Permutation_nil in P; subst; reflexivity|]. destruct l' as [|x' t']; [apply Permutation_sym, Permutation_nil in P; discriminate|].
  cbn. rewrite (fold_head nmax nmax_comm nmax_assoc _ _ _ _ P). reflexivity.
Qed.

(** One map at a time. *)
Definition scan_residual illum tel p wavel N bf (m : scan) : res (list R) :=
  bind (radiation_pattern illum tel (firstn 5 p) (skipn 5 p) (fst m) wavel N bf) (fun '(u, v, F) =>
  bind (interp_points u v (power_pattern F) (map (fun s : reading => fst (fst s)) (snd m)) (map (fun s : reading => snd (fst s)) (snd m))) (fun md =>
  bind (norm_all (map (fun s : reading => snd s) (snd m))) (fun d =>
  bind (norm_all (map Fin md)) (fun q => Ok (map2 Rminus d q))))).
Lemma map2_maps {A B C D} (f : B -> C -> D) (g : A -> B) (h : A -> C) l : map2 f (map g l) (map h l) = map (fun x => f (g x) (h x)) l.
Proof. induction l as [|x l IH]; cbn [map map2]; [reflexivity|]. rewrite IH. reflexivity. Qed.
Lemma forallb_perm {A} (f : A -> bool) l l' : Permutation l l' -> forallb f l' = forallb f l.
Proof. induction 1; cbn [forallb]; try congruence. destruct (f x), (f y); reflexivity. Qed.
Lemma scan_shuffle illum tel p wavel N bf m m' r : scan_residual illum tel p wavel N bf m = Ok r -> fst m' = fst m -> Permutation (snd m) (snd m') ->
  exists f, r = map f (snd m) /\ scan_residual illum tel p wavel N bf m' = Ok (map f (snd m')).
Proof.
  intros H E P. unfold scan_residual in *. rewrite E. destruct (radiation_pattern _ _ _ _ _ _ _ _) as [[[u v] F]|]; [|discriminate]. cbn [bind] in *.
  unfold interp_points in *. rewrite !map_length, !Nat.eqb_refl in *.
  rewrite <- (forallb_perm (in_bounds u) _ _ (Permutation_map _ P)), <- (forallb_perm (in_bounds v) _ _ (Permutation_map _ P)) in H.
  destruct (_ && _); [|discriminate]. cbn [bind] in *. rewrite !map2_maps in *. unfold norm_all in *.
  rewrite (np_min_perm _ _ (Permutation_map (fun s : reading => snd s) P)), (np_max_perm _ _ (Permutation_map (fun s : reading => snd s) P)).
  rewrite (np_min_perm _ _ (Permutation_map Fin (Permutation_map _ P))), (np_max_perm _ _ (Permutation_map Fin (Permutation_map _ P))).
  destruct (np_min (map (fun s : reading => snd s) (snd m))) as [mn|]; [|discriminate]. destruct (np_max (map (fun s : reading => snd s) (snd m))) as [mx|]; [|discriminate]. cbn [bind] in *.
  destruct (np_min (map Fin _)) as [mn'|]; [|discriminate]. destruct (np_max (map Fin _)) as [mx'|]; [|discriminate]. cbn [bind] in *.
  rewrite !map_map, map2_maps in *. apply Ok_inj in H. eexists. split; [symmetry; exact H|reflexivity].
Qed.
Lemma scan_length illum tel p wavel N bf m r : scan_residual illum tel p wavel N bf m = Ok r -> length r = length (snd m).
Proof. intros H. destruct (scan_shuffle _ _ _ _ _ _ m m r H eq_refl (Permutation_refl _)) as (f & -> & _). apply map_length. Qed.

Lemma residual_scans illum tel p m0 m1 m2 wavel N bf r :
  (let e := [m0; m1; m2] in residual_true illum tel p (values e) (us e) (vs e) (offsets e) wavel N bf = Ok r) <->
  exists r0 r1 r2, scan_residual illum tel p wavel N bf m0 = Ok r0 /\ scan_residual illum tel p wavel N bf m1 = Ok r1 /\ scan_residual illum tel p wavel N bf m2 = Ok r2 /\ r = r0 ++ r1 ++ r2.
Proof.
  cbv zeta. unfold residual_true. set (row := model_row _ _ _ _ _ _ _ _ _).
  set (rw := fun m : scan => bind (radiation_pattern illum tel (firstn 5 p) (skipn 5 p) (fst m) wavel N bf) (fun '(u, v, F) =>
    interp_points u v (power_pattern F) (map (fun s : reading => fst (fst s)) (snd m)) (map (fun s : reading => snd (fst s)) (snd m)))).
  assert (R0 : row 0%nat = rw m0) by reflexivity. assert (R1 : row 1%nat = rw m1) by reflexivity. assert (R2 : row 2%nat = rw m2) by reflexivity.
  assert (LR : forall m l, rw m = Ok l -> length l = length (snd m)).
  { intros m l. unfold rw. destruct (radiation_pattern _ _ _ _ _ _ _ _) as [[[u v] F]|]; [|discriminate]. cbn [bind]. unfold interp_points. rewrite !map_length, Nat.eqb_refl.
    destruct (_ && _); [|discriminate]. rewrite map2_maps. intros Hl. apply Ok_inj in Hl. subst l. apply map_length. }
  assert (SR : forall m, scan_residual illum tel p wavel N bf m = bind (rw m) (fun md => bind (norm_all (map (fun s : reading => snd s) (snd m))) (fun d => bind (norm_all (map Fin md)) (fun q => Ok (map2 Rminus d q))))).
  { intros m. unfold scan_residual, rw. destruct (radiation_pattern _ _ _ _ _ _ _ _) as [[[u v] F]|]; reflexivity. }
  rewrite !norm_rows_eq. unfold values. cbn [map mapM].
  split.
  - intros H. apply bind_ok in H. destruct H as (bm & EB & H). cbn [fill_rows] in EB.
    apply bind_ok in EB. destruct EB as (l0 & E0 & EB). apply bind_ok in EB. destruct EB as (B0 & A0 & EB). apply bind_ok in EB. destruct EB as (l1 & E1 & EB). apply bind_ok in EB. destruct EB as (B1 & A1 & EB).
    apply bind_ok in EB. destruct EB as (l2 & E2 & EB). apply bind_ok in EB. destruct EB as (B2 & A2 & EB). apply Ok_inj in EB. subst bm.
    rewrite R0 in E0. rewrite R1 in E1. rewrite R2 in E2.
    apply assign_same in A0; [|intros old Ho; cbn in Ho; injection Ho as <-; rewrite !map_length; exact (LR _ _ E0)]. destruct A0 as [_ ->]. cbn [PyBase.set_nth] in A1.
    apply assign_same in A1; [|intros old Ho; cbn in Ho; injection Ho as <-; rewrite !map_length; exact (LR _ _ E1)]. destruct A1 as [_ ->]. cbn [PyBase.set_nth] in A2.
    apply assign_same in A2; [|intros old Ho; cbn in Ho; injection Ho as <-; rewrite !map_length; exact (LR _ _ E2)]. destruct A2 as [_ ->]. cbn [PyBase.set_nth] in H.
    cbn [map mapM] in H. rewrite !SR, E0, E1, E2. cbn [bind].
    destruct (norm_all (map (fun s : reading => snd s) (snd m0))) as [d0|]; [|cbn [bind] in H; discriminate]. destruct (norm_all (map (fun s : reading => snd s) (snd m1))) as [d1|]; [|cbn [bind] in H; discriminate].
    destruct (norm_all (map (fun s : reading => snd s) (snd m2))) as [d2|]; [|cbn [bind] in H; discriminate]. cbn [bind] in *.
    rewrite norm_rows_eq in H. cbn [mapM] in H.
    destruct (norm_all (map Fin l0)) as [q0|]; [|cbn [bind] in H; discriminate]. destruct (norm_all (map Fin l1)) as [q1|]; [|cbn [bind] in H; discriminate]. destruct (norm_all (map Fin l2)) as [q2|]; [|cbn [bind] in H; discriminate]. cbn [bind] in *.
    apply Ok_inj in H. subst r. cbn [map2 concat]. rewrite app_nil_r. eexists _, _, _. repeat (split; [reflexivity|]). reflexivity.
  - intros (r0 & r1 & r2 & S0 & S1 & S2 & ->). rewrite SR in S0, S1, S2.
    apply bind_ok in S0. destruct S0 as (l0 & E0 & S0). apply bind_ok in S1. destruct S1 as (l1 & E1 & S1). apply bind_ok in S2. destruct S2 as (l2 & E2 & S2).
    rewrite (fill3 row _ _ _ l0 l1 l2) by (rewrite ?R0, ?R1, ?R2, ?map_length; auto). cbn [bind map]. rewrite norm_rows_eq. cbn [mapM].
    destruct (norm_all (map (fun s : reading => snd s) (snd m0))) as [d0|]; [|cbn [bind] in *; discriminate]. destruct (norm_all (map (fun s : reading => snd s) (snd m1))) as [d1|]; [|cbn [bind] in *; discriminate].
    destruct (norm_all (map (fun s : reading => snd s) (snd m2))) as [d2|]; [|cbn [bind] in *; discriminate]. cbn [bind] in *.
    destruct (norm_all (map Fin l0)) as [q0|]; [|cbn [bind] in *; discriminate]. destruct (norm_all (map Fin l1)) as [q1|]; [|cbn [bind] in *; discriminate]. destruct (norm_all (map Fin l2)) as [q2|]; [|cbn [bind] in *; discriminate]. cbn [bind] in *.
    apply Ok_inj in S0, S1, S2. subst. cbn [map2 concat]. rewrite app_nil_r. reflexivity.
Qed.

Definition block illum tel p wavel N bf (m : scan) (B : list (R * reading * R)) : Prop :=
  exists r, scan_residual illum tel p wavel N bf m = Ok r /\ B = combine (map (pair (fst m)) (snd m)) r.
Lemma combine_app2 {A B} (a a' : list A) (b b' : list B) : length a = length b -> combine (a ++ a') (b ++ b') = combine a b ++ combine a' b'.
Proof. revert b. induction a as [|x a IH]; destruct b as [|y b]; try discriminate; intros H; [reflexivity|]. cbn. rewrite IH by (injection H; auto). reflexivity. Qed.
Lemma combine_self {A B C} (f : A -> B) (g : A -> C) l : combine (map f l) (map g l) = map (fun x => (f x, g x)) l.
Proof. induction l as [|x l IH]; cbn; [reflexivity|]. rewrite IH. reflexivity. Qed.
Lemma residual_blocks illum tel p m0 m1 m2 wavel N bf r : let e := [m0; m1; m2] in residual_true illum tel p (values e) (us e) (vs e) (offsets e) wavel N bf = Ok r ->
  exists Bs, Forall2 (block illum tel p wavel N bf) e Bs /\ labelled e r = concat Bs.
Proof.
  intros e H. apply residual_scans in H. destruct H as (r0 & r1 & r2 & S0 & S1 & S2 & ->).
  eexists [_; _; _]. split; [repeat constructor; eexists; (split; [eassumption|reflexivity])|].
  unfold e, labelled. cbn [map concat]. rewrite !app_nil_r. rewrite combine_app2 by (rewrite map_length; symmetry; exact (scan_length _ _ _ _ _ _ _ _ S0)). rewrite combine_app2 by (rewrite map_length; symmetry; exact (scan_length _ _ _ _ _ _ _ _ S1)). reflexivity.
Qed.
Lemma block_shuffle illum tel p wavel N bf m m' B : fst m' = fst m /\ Permutation (snd m) (snd m') -> block illum tel p wavel N bf m B ->
  exists B', block illum tel p wavel N bf m' B' /\ Permutation B B'.
Proof.
  intros (E & P) (r & H & ->). destruct (scan_shuffle _ _ _ _ _ _ m m' r H E P) as (f & -> & H'). eexists. split; [exists (map f (snd m')); split; [exact H'|reflexivity]|].
  rewrite !combine_self, E. apply Permutation_map, P.
Qed.
Lemma blocks_shuffle illum tel p wavel N bf e e' Bs : Forall2 (fun m m' => fst m' = fst m /\ Permutation (snd m) (snd m')) e e' -> Forall2 (block illum tel p wavel N bf) e Bs ->
  exists Bs', Forall2 (block illum tel p wavel N bf) e' Bs' /\ Permutation (concat Bs) (concat Bs').
Proof.
  intros H. revert Bs. induction H as [|m m' l l' Hm _ IH]; intros Bs HB; inversion HB; subst; [exists []; split; constructor|].
  destruct (block_shuffle _ _ _ _ _ _ _ _ _ Hm ltac:(eassumption)) as (B' & HB' & PB). destruct (IH _ ltac:(eassumption)) as (Bs' & HBs & PBs). exists (B' :: Bs'). split; [constructor; assumption|]. cbn. apply Permutation_app; assumption.
Qed.
Lemma concat_perm {A} (l l' : list (list A)) : Permutation l l' -> Permutation (concat l) (concat l').
Proof. intros H. induction H; cbn; [constructor|apply Permutation_app_head; assumption| |eapply Permutation_trans; eassumption]. rewrite !app_assoc. apply Permutation_app_tail, Permutation_app_comm. Qed.

Lemma residual_shuffle illum tel p e e' wavel N bf r : length e = 3%nat -> shuffled e e' ->
  residual_true illum tel p (values e) (us e) (vs e) (offsets e) wavel N bf = Ok r ->
  exists r', residual_true illum tel p (values e') (us e') (vs e') (offsets e') wavel N bf = Ok r' /\ Permutation (labelled e r) (labelled e' r').
Proof.
  intros L (e1 & P & F2) H. destruct e as [|m0 [|m1 [|m2 [|? ?]]]]; try discriminate L.
  destruct (residual_blocks illum tel p m0 m1 m2 wavel N bf r H) as (Bs & HB & EL).
  destruct (Permutation_Forall2 P HB) as (Bs1 & PB & HB1). destruct (blocks_shuffle _ _ _ _ _ _ _ _ _ F2 HB1) as (Bs' & HB' & PB').
  assert (L' : length e' = 3%nat). { transitivity (length e1); [symmetry; exact (Forall2_len _ _ _ F2)|]. rewrite <- (Permutation_length P). reflexivity. }
  destruct e' as [|n0 [|n1 [|n2 [|? ?]]]]; try discriminate L'.
  inversion HB' as [|? ? ? ? (s0 & S0 & E0) HB2]; subst. inversion HB2 as [|? ? ? ? (s1 & S1 & E1) HB3]; subst. inversion HB3 as [|? ? ? ? (s2 & S2 & E2) HB4]; subst. inversion HB4; subst.
  exists (s0 ++ s1 ++ s2). split; [apply residual_scans; exists s0, s1, s2; auto|].
  rewrite EL. eapply Permutation_trans; [apply concat_perm; exact PB|]. eapply Permutation_trans; [exact PB'|].
  unfold labelled. cbn [map concat]. rewrite !app_nil_r. rewrite combine_app2 by (rewrite map_length; symmetry; exact (scan_length _ _ _ _ _ _ _ _ S0)). rewrite combine_app2 by (rewrite map_length; symmetry; exact (scan_length _ _ _ _ _ _ _ _ S1)). apply Permutation_refl.
Qed.
