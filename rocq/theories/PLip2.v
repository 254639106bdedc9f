(** A fit has a best answer. *)
From Coq Require Import String Ascii List ZArith Lia Lra Classical.
From Verif Require Import PyBase PyLib Num MZernike SZernike MMath SMath MAperture MTel MRad MCore SCore SRad MFs MOut MAux MSim SOut SFit SBest SGain SRecover SPlot SLip PNorm PIllum PRad PResid PSim PEnd PGain3 PBest PRecover PFar PFs PBox PLip.
From Coquelicot Require Import Complex.
Import ListNotations.
Open Scope R_scope.
Open Scope list_scope.

Lemma explained_ok a I K n Ea : comparable a -> length I = 5%nat -> (2 * length K = (n + 1) * (n + 2))%nat -> fa_illum a I (tel_pr (fa_tel a)) = Ok Ea -> exists r, explained a (I ++ K) r.
Proof.
  intros (Hw & Hp & Hb & HN & Hout & m & Hm & Lb & Lu & Lv & Lz & Hg) HI HK HE. unfold explained.
  destruct (three_lengths _ m Lb) as (b0 & b1 & b2 & Eb & B0 & B1 & B2). destruct (three_lengths _ m Lu) as (x0 & x1 & x2 & Eu & X0 & X1 & X2). destruct (three_lengths _ m Lv) as (y0 & y1 & y2 & Ev & Y0 & Y1 & Y2).
  rewrite Eb, Eu, Ev in *. destruct (fa_d_z a) as [|z0 [|z1 [|z2 [|z3 t]]]]; try discriminate Lz.
  destruct (residual_grid (fa_illum a) (fa_tel a) (I ++ K) n b0 b1 b2 x0 x1 x2 y0 y1 y2 z0 z1 z2 (fa_wavel a) (fa_resolution a) (fa_box_factor a) Ea Hw Hp Hb HN) as (H & _); try congruence; try lia.
  - rewrite app_length. lia.
  - rewrite <- HI, firstn_app, firstn_all, Nat.sub_diag, firstn_O, app_nil_r. exact HE.
  - intros ->. cbn in B0. lia.
  - destruct H as (r & E & _); [|exists r; exact E]. intros x Hx. apply Hg. cbn [concat]. rewrite !in_app_iff in *. tauto.
Qed.

Lemma sum_sq_lower r r' t : 0 <= t -> Forall2 (fun x x' => Rabs (x' - x) <= t) r r' -> sum_sq r - 2 * t * py_sum (map Rabs r) <= sum_sq r'.
Proof.
  intros Ht H. induction H as [|x x' r r' H _ IH]; [cbn; lra|]. rewrite !sum_sq_cons. cbn [map]. unfold py_sum in *. cbn [fold_right]. change (Rabs x :: map Rabs r) with ([Rabs x] ++ map Rabs r).
  assert (E : py_sum ([Rabs x] ++ map Rabs r) = Rabs x + py_sum (map Rabs r)) by (rewrite py_sum_app; unfold py_sum; cbn; ring). unfold py_sum in E. rewrite E.
  assert (x * x - 2 * t * Rabs x <= x' * x'); [|lra].
  assert (0 <= Rabs x) by apply Rabs_pos. assert (Rabs x * Rabs x = x * x) by (rewrite <- Rabs_mult; apply Rabs_pos_eq; nra).
  apply Rabs_le_iff in H. replace x' with (x + (x' - x)) by ring. set (d := x' - x) in *. clearbody d. clear - H Ht. assert (0 <= d * d) by nra.
  destruct (Rle_lt_dec 0 x); [rewrite Rabs_pos_eq by lra|rewrite Rabs_left by lra]; nra.
Qed.

Lemma Forall2_impl' {A B} (P Q : A -> B -> Prop) l m : (forall x y, P x y -> Q x y) -> Forall2 P l m -> Forall2 Q l m.
Proof. intros H F. induction F; constructor; auto. Qed.
Lemma contrast_of_varies a p : varies a p -> exists D, 0 < D /\ contrast a p D.
Proof.
  intros H.
  assert (X : forall i, (i < 3)%nat -> exists D, 0 < D /\ exists m s t, modelled a p i = Ok m /\ In s m /\ In t m /\ D <= t - s).
  { intros i Hi. destruct (H i Hi) as (m & s & t & E & Is & It & Hst). destruct (Rlt_le_dec s t).
    - exists (t - s). split; [lra|]. exists m, s, t. repeat split; try assumption. lra.
    - exists (s - t). split; [lra|]. exists m, t, s. repeat split; try assumption. lra. }
  destruct (X 0%nat ltac:(lia)) as (D0 & P0 & H0). destruct (X 1%nat ltac:(lia)) as (D1 & P1 & H1). destruct (X 2%nat ltac:(lia)) as (D2 & P2 & H2).
  exists (Rmin D0 (Rmin D1 D2)). split; [repeat apply Rmin_pos; assumption|].
  pose proof (Rmin_l D0 (Rmin D1 D2)). pose proof (Rmin_r D0 (Rmin D1 D2)). pose proof (Rmin_l D1 D2). pose proof (Rmin_r D1 D2).
  intros i Hi. destruct i as [|[|[|i]]]; [| | |lia]; [destruct H0 as (m & s & t & E & A & B & C)|destruct H1 as (m & s & t & E & A & B & C)|destruct H2 as (m & s & t & E & A & B & C)]; exists m, s, t; repeat split; try assumption; lra.
Qed.

Lemma close_to_sum d x y : close_to d x y -> length y = length x /\ py_sum (map Rabs (map2 Rminus y x)) <= d * INR (length x).
Proof.
  intros H. induction H as [|s t x y H _ [L IH]]; [cbn; split; [reflexivity|lra]|]. cbn [length map2 map]. split; [lia|].
  change (Rabs (t - s) :: map Rabs (map2 Rminus y x)) with ([Rabs (t - s)] ++ map Rabs (map2 Rminus y x)). rewrite py_sum_app, S_INR. unfold py_sum at 1. cbn. lra.
Qed.

Definition cost (a : fit_args) (p : list R) : R :=
  match residual_true (fa_illum a) (fa_tel a) p (fa_beam a) (fa_u a) (fa_v a) (fa_d_z a) (fa_wavel a) (fa_resolution a) (fa_box_factor a) with Ok r => sum_sq r | Err _ => 0 end.
Lemma cost_of a p r : explained a p r -> cost a p = sum_sq r.
Proof. unfold explained, cost. intros ->. reflexivity. Qed.
Lemma inbox_length lo : forall hi x, inbox lo hi x -> length x = length lo.
Proof. induction lo as [|l lo IH]; intros [|h hi] [|t x] H; cbn in H; try contradiction; [reflexivity|]. cbn. f_equal. apply (IH hi). tauto. Qed.

Lemma py_sum_nonneg l : (forall x, In x l -> 0 <= x) -> 0 <= py_sum l.
Proof.
  induction l as [|x l IH]; intros H; [unfold py_sum; cbn; lra|]. change (x :: l) with ([x] ++ l). rewrite py_sum_app. unfold py_sum at 1. cbn. pose proof (H x (or_introl eq_refl)). pose proof (IH (fun y Hy => H y (or_intror Hy))). lra.
Qed.

Lemma best_K a I n Ea lo hi K0 : comparable a -> length I = 5%nat -> (2 * length lo = (n + 1) * (n + 2))%nat -> fa_illum a I (tel_pr (fa_tel a)) = Ok Ea -> inbox lo hi K0 ->
  (forall K, inbox lo hi K -> varies a (I ++ K)) -> exists K, inbox lo hi K /\ forall K', inbox lo hi K' -> cost a (I ++ K) <= cost a (I ++ K').
Proof.
  intros HC HI HL HE H0 HV. apply (box_min lo hi (fun K => cost a (I ++ K)) K0 H0). intros K e HK He.
  pose proof (inbox_length _ _ _ HK) as LK. destruct (contrast_of_varies _ _ (HV K HK)) as (D & HD & HCt).
  destruct (explained_ok a I K n Ea HC HI ltac:(rewrite LK; exact HL) HE) as (r & Er). rewrite (cost_of _ _ _ Er).
  set (S2 := over_samples (tel_pr (fa_tel a) * fa_box_factor a) (fa_resolution a) (fun x y => Rabs (block_dist (fa_tel a) x y * Ea x y)) ^ 2).
  assert (P2 : 0 <= S2) by apply pow2_ge_0. assert (PP : 0 < PI) by apply PI_RGT_0. pose proof (pos_INR (length K)) as PL.
  assert (PS : 0 <= py_sum (map Rabs r)). { apply py_sum_nonneg. intros x Hx. apply in_map_iff in Hx as (y & <- & _). apply Rabs_pos. }
  set (Lc := 4 * (4 * PI * INR (length K) * S2) / D).
  assert (PC : 0 <= Lc) by (unfold Lc, Rdiv; apply Rmult_le_pos; [apply Rmult_le_pos; [lra|apply Rmult_le_pos; [apply Rmult_le_pos; [lra|exact PL]|exact P2]]|left; apply Rinv_0_lt_compat; exact HD]).
  set (d := e / (2 * Lc * py_sum (map Rabs r) + 1)).
  assert (PX : 0 < 2 * Lc * py_sum (map Rabs r) + 1) by (assert (0 <= Lc * py_sum (map Rabs r)) by (apply Rmult_le_pos; assumption); lra).
  assert (Pd : 0 < d) by (apply Rdiv_lt_0_compat; assumption).
  exists d. split; [exact Pd|]. intros K' HK' Hc. destruct (close_to_sum _ _ _ Hc) as (LK' & Hs).
  destruct (explained_ok a I K' n Ea HC HI ltac:(rewrite LK', LK; exact HL) HE) as (r' & Er'). rewrite (cost_of _ _ _ Er').
  pose proof (residual_lip a I K K' (fa_d_z a) 0 D n Ea r r' HC HI ltac:(rewrite LK; exact HL) LK' HE) as L. fold S2 in L.
  assert (F : Forall2 (fun x x' => Rabs (x' - x) <= d * Lc) r r').
  { eapply Forall2_impl'; [|apply L; try assumption].
    - intros x x' Hx. cbv beta in Hx. eapply Rle_trans; [exact Hx|]. unfold Lc, Rdiv. replace (0 * / fa_wavel a) with 0 by ring.
      replace (d * (4 * (4 * PI * INR (length K) * S2) * / D)) with (4 * (4 * PI * (d * INR (length K)) * S2) * / D) by ring.
      apply Rmult_le_compat_r; [left; apply Rinv_0_lt_compat; exact HD|]. apply Rmult_le_compat_l; [lra|]. apply Rmult_le_compat_r; [exact P2|]. apply Rmult_le_compat_l; lra.
    - destruct HC as (_ & _ & _ & _ & _ & m & _ & _ & _ & _ & Lz & _). exact Lz.
    - intros i x y _ _. replace (_ - _) with 0 by ring. rewrite Rabs_R0. lra. }
  pose proof (sum_sq_lower r r' (d * Lc) ltac:(apply Rmult_le_pos; lra) F) as G.
  assert (2 * (d * Lc) * py_sum (map Rabs r) <= e); [|lra].
  assert (E : d * (2 * Lc * py_sum (map Rabs r) + 1) = e) by (unfold d; field; lra). nra.
Qed.

(** ** The allowed vectors are a box *)
Lemma inbox_map (f g : nat -> R) m : forall s x, inbox (map f (seq s m)) (map g (seq s m)) x <-> length x = m /\ forall j, (j < m)%nat -> f (s + j)%nat <= nth j x 0 <= g (s + j)%nat.
Proof.
  induction m as [|m IH]; intros s x.
  - cbn [seq map]. destruct x; cbn [inbox length]; split; [intros _; split; [reflexivity|intros; lia]|tauto|tauto|intros [H _]; discriminate H].
  - cbn [seq map]. destruct x as [|t x]; cbn [inbox length]; [split; [tauto|intros [H _]; discriminate H]|]. rewrite IH. split.
    + intros (H0 & L & H). split; [lia|]. intros [|j] Hj; [rewrite Nat.add_0_r; exact H0|]. cbn [nth]. rewrite <- Nat.add_succ_comm. apply H. lia.
    + intros (L & H). split; [specialize (H 0%nat ltac:(lia)); rewrite Nat.add_0_r in H; exact H|]. split; [lia|]. intros j Hj. specialize (H (S j) ltac:(lia)). rewrite <- Nat.add_succ_comm in H. exact H.
Qed.
Definition lowest (c : config) (i : nat) : R := if in_dec Z.eq_dec (Z.of_nat i) (cf_excluded c) then nth i (cf_fixed c) 0 else nth i (cf_bound_min c) (-5).
Definition highest (c : config) (i : nat) : R := if in_dec Z.eq_dec (Z.of_nat i) (cf_excluded c) then nth i (cf_fixed c) 0 else nth i (cf_bound_max c) 5.
Lemma allowed_range c n p : allowed c n p <-> length p = (5 + coeffs n)%nat /\ forall i, (i < 5 + coeffs n)%nat -> lowest c i <= nth i p 0 <= highest c i.
Proof.
  unfold allowed. split; intros [L H]; (split; [exact L|]); intros i Hi; specialize (H i Hi); unfold lowest, highest in *; destruct (in_dec Z.eq_dec (Z.of_nat i) (cf_excluded c)).
  - destruct H as [H _]. rewrite (H i0). lra.
  - apply H. assumption.
  - split; [intros _; lra|tauto].
  - split; [tauto|intros _; lra].
Qed.
Definition lows c n := map (lowest c) (seq 5 (coeffs n)).
Definition highs c n := map (highest c) (seq 5 (coeffs n)).
Lemma allowed_box c n I K : length I = 5%nat -> allowed c n (I ++ K) <-> (forall i, (i < 5)%nat -> lowest c i <= nth i I 0 <= highest c i) /\ inbox (lows c n) (highs c n) K.
Proof.
  intros HI. rewrite allowed_range. unfold lows, highs. rewrite inbox_map, app_length, HI. split.
  - intros [L H]. split; [|split; [lia|]].
    + intros i Hi. specialize (H i ltac:(lia)). rewrite app_nth1 in H by lia. exact H.
    + intros j Hj. specialize (H (5 + j)%nat ltac:(lia)). rewrite app_nth2 in H by lia. replace (5 + j - length I)%nat with j in H by lia. exact H.
  - intros (H & L & G). split; [lia|]. intros i Hi. destruct (Nat.lt_ge_cases i 5) as [A|A].
    + rewrite app_nth1 by lia. apply H. exact A.
    + rewrite app_nth2 by lia. rewrite HI. specialize (G (i - 5)%nat ltac:(lia)). replace (5 + (i - 5))%nat with i in G by lia. exact G.
Qed.
Lemma lows_length c n : (2 * length (lows c n) = (n + 1) * (n + 2))%nat.
Proof. unfold lows. rewrite map_length, seq_length. apply coeffs_twice. Qed.
Lemma allowed_split c n p : allowed c n p -> exists I K, p = I ++ K /\ length I = 5%nat.
Proof. intros [L _]. exists (firstn 5 p), (skipn 5 p). split; [symmetry; apply firstn_skipn|]. rewrite firstn_length. lia. Qed.
Lemma allowed_fixed c n I K i : length I = 5%nat -> (i < 5)%nat -> In (Z.of_nat i) (cf_excluded c) -> allowed c n (I ++ K) -> nth i I 0 = nth i (cf_fixed c) 0.
Proof. intros HI Hi Hx H. apply allowed_box in H; [|exact HI]. destruct H as [H _]. specialize (H i Hi). unfold lowest, highest in H. destruct (in_dec Z.eq_dec (Z.of_nat i) (cf_excluded c)); [lra|tauto]. Qed.

Lemma best_exists a c n p0 Ea : comparable a -> (forall i, (i < 5)%nat -> In (Z.of_nat i) (cf_excluded c)) -> length (cf_fixed c) = 8%nat ->
  fa_illum a (firstn 5 (cf_fixed c)) (tel_pr (fa_tel a)) = Ok Ea -> allowed c n p0 -> (forall p, allowed c n p -> varies a p) ->
  exists q r, allowed c n q /\ explained a q r /\ forall q' r', allowed c n q' -> explained a q' r' -> sum_sq r <= sum_sq r'.
Proof.
  intros HC HX HL HE H0 HV. set (I := firstn 5 (cf_fixed c)) in *. assert (HI : length I = 5%nat) by (unfold I; rewrite firstn_length; lia).
  assert (Sh : forall p, allowed c n p -> exists K, p = I ++ K).
  { intros p Hp. destruct (allowed_split _ _ _ Hp) as (J & K & -> & LJ). exists K. f_equal. apply (nth_ext _ _ 0 0); [lia|]. intros i Hi. rewrite LJ in Hi.
    rewrite (allowed_fixed c n J K i LJ Hi (HX i Hi) Hp). unfold I. destruct (cf_fixed c) as [|f0 [|f1 [|f2 [|f3 [|f4 ff]]]]]; try discriminate HL. destruct i as [|[|[|[|[|i]]]]]; try reflexivity; lia. }
  destruct (Sh _ H0) as (K0 & ->). pose proof (proj1 (allowed_box c n I K0 HI) H0) as [HB B0].
  destruct (best_K a I n Ea (lows c n) (highs c n) K0 HC HI (lows_length c n) HE B0) as (K & HK & Best).
  - intros K HK. apply HV. apply allowed_box; [exact HI|]. split; assumption.
  - assert (LK : (2 * length K = (n + 1) * (n + 2))%nat) by (rewrite (inbox_length _ _ _ HK); apply lows_length).
    destruct (explained_ok a I K n Ea HC HI LK HE) as (r & Er). exists (I ++ K), r. split; [apply allowed_box; [exact HI|split; assumption]|]. split; [exact Er|].
    intros q' r' Hq' Er'. destruct (Sh _ Hq') as (K' & ->). apply allowed_box in Hq' as [_ HK']; [|exact HI]. specialize (Best K' HK'). rewrite (cost_of _ _ _ Er), (cost_of _ _ _ Er') in Best. exact Best.
Qed.

(** ** Zero amplitude *)
Lemma zero_illum c q x0 y0 pr Ea x y : 0 < q -> illum_parabolic [0; c; q; x0; y0] pr = Ok Ea -> Ea x y = 0.
Proof.
  intros Hq E. apply Ok_inj in E. subst Ea. cbv zeta beta. unfold npow.
  repeat (match goal with |- context [if ?b then _ else _] => destruct b end); cbn [nmul nadd nan_to_num]; try lra.
Qed.
Lemma Csum_all_zero n f : (forall i, f i = RtoC 0) -> Csum n f = RtoC 0.
Proof. intros H. induction n as [|n IH]; [reflexivity|]. cbn [Csum]. rewrite IH, H. ring. Qed.
Lemma zero_field tel Ea n K z wavel box N u v : (forall x y, Ea x y = 0) -> far_field (aperture_field tel Ea n K z wavel) box N wavel u v = RtoC 0.
Proof.
  intros H. unfold far_field. apply Csum_all_zero. intros j. apply Csum_all_zero. intros i. unfold aperture_field. rewrite H, Rmult_0_r. ring.
Qed.
Lemma norm_zero m p : norm_all (map Fin (repeat 0 m)) = Ok p -> p = repeat 0 m.
Proof.
  intros E. destruct m as [|m]; [discriminate E|]. destruct (norm_finite (repeat 0 (S m))) as (mn & mx & Imn & Imx & _ & E2); [discriminate|]. rewrite E2 in E. apply Ok_inj in E. subst p.
  apply repeat_spec in Imn. apply repeat_spec in Imx. subst. destruct (Req_EM_T 0 0); [|contradiction]. rewrite map_zero, repeat_length. reflexivity.
Qed.
Lemma zero_interp xs : forall r (P : R -> R -> R) h N, (forall x y, P x y = 0) -> Forall2 (fun xy val => interpolates P h N (fst xy) (snd xy) val) xs r -> r = repeat 0 (length xs).
Proof.
  intros r P h N HP H. induction H as [|xy val xs r H _ IH]; [reflexivity|]. cbn [length repeat]. f_equal; [|exact IH].
  destruct H as (i & j & s & t & _ & _ & _ & _ & _ & _ & _ & _ & ->). rewrite !HP. ring.
Qed.
Lemma map2_minus_zeros q m : length q = m -> map2 Rminus q (repeat 0 m) = q.
Proof. intros <-. induction q as [|x q IH]; [reflexivity|]. cbn. rewrite IH, Rminus_0_r. reflexivity. Qed.
Lemma norm_all_len b q : norm_all b = Ok q -> length q = length b.
Proof. unfold norm_all. destruct (np_min b); [|discriminate]. destruct (np_max b); [|discriminate]. intros E. apply Ok_inj in E. subst q. apply map_length. Qed.

Lemma zero_residual a cdb q x0 y0 K n : comparable a -> fa_illum a = illum_parabolic -> 0 < q -> (2 * length K = (n + 1) * (n + 2))%nat ->
  exists b0 b1 b2 d0 d1 d2, fa_beam a = [b0; b1; b2] /\ norm_all b0 = Ok d0 /\ norm_all b1 = Ok d1 /\ norm_all b2 = Ok d2 /\ explained a (0 :: cdb :: q :: x0 :: y0 :: K) (d0 ++ d1 ++ d2).
Proof.
  intros HC Hill Hq HK. pose proof HC as (Hw & Hp & Hb & HN & Hout & m & Hm & Lb & Lu & Lv & Lz & Hg).
  destruct (proj1 (par_arity [0; cdb; q; x0; y0] (tel_pr (fa_tel a))) eq_refl) as [Ea HE]. pose proof (fun x y => zero_illum cdb q x0 y0 (tel_pr (fa_tel a)) Ea x y Hq HE) as Z.
  destruct (explained_ok a [0; cdb; q; x0; y0] K n Ea HC eq_refl HK ltac:(rewrite Hill; exact HE)) as (r & Er). cbn [app] in Er. pose proof Er as R. unfold explained in R.
  destruct (three_lengths _ m Lb) as (b0 & b1 & b2 & Eb & B0 & B1 & B2). destruct (three_lengths _ m Lu) as (u0 & u1 & u2 & Eu & X0 & X1 & X2). destruct (three_lengths _ m Lv) as (v0 & v1 & v2 & Ev & Y0 & Y1 & Y2).
  set (p := 0 :: cdb :: q :: x0 :: y0 :: K) in *.
  assert (Row : forall i, (i < 3)%nat -> model_row (fa_illum a) (fa_tel a) p (fa_u a) (fa_v a) (fa_d_z a) (fa_wavel a) (fa_resolution a) (fa_box_factor a) i = Ok (repeat 0 m)).
  { intros i Hi.
    assert (Nx : exists xs ys, nth_error (fa_u a) i = Some xs /\ nth_error (fa_v a) i = Some ys /\ length xs = m /\ length ys = m /\ forall t, In t (xs ++ ys) -> In t (concat (fa_u a) ++ concat (fa_v a))).
    { rewrite Eu, Ev. destruct i as [|[|[|i]]]; [| | |lia]; cbn [nth_error]; eexists _, _; (split; [reflexivity|split; [reflexivity|split; [assumption|split; [assumption|]]]]); intros t Ht; cbn [concat]; rewrite !in_app_iff in *; tauto. }
    destruct Nx as (xs & ys & Ex & Ey & LX & LY & Hin).
    assert (Ez : nth_error (fa_d_z a) i = Some (nth i (fa_d_z a) 0)) by (apply nth_error_nth'; lia).
    assert (HE' : fa_illum a (firstn 5 p) (tel_pr (fa_tel a)) = Ok Ea) by (rewrite Hill; exact HE).
    assert (Lp : (2 * (length p - 5) = (n + 1) * (n + 2))%nat) by (unfold p; cbn [length]; lia).
    destruct (model_row_total (fa_illum a) (fa_tel a) p n (fa_u a) (fa_v a) (fa_d_z a) (fa_wavel a) (fa_resolution a) (fa_box_factor a) i xs ys Ea _ Hw Hp Hb HN Lp HE' Ez Ex Ey ltac:(lia)) as [(_ & row & Erow & Lr)|(G & _)]; [|exfalso; apply G; intros t Ht; apply Hg, Hin, Ht].
    rewrite Erow. f_equal. destruct (row_far _ _ _ _ _ _ _ _ _ _ _ _ _ _ Hw Hp Hb Lp HE' Ez Erow) as (xs' & ys' & Ex' & Ey' & _ & F).
    rewrite Ex in Ex'. injection Ex' as <-. rewrite Ey in Ey'. injection Ey' as <-. apply zero_interp in F; [rewrite F, combine_length, LX, LY, Nat.min_id; reflexivity|].
    intros x y. rewrite (zero_field _ _ _ _ _ _ _ _ _ _ Z), Cmod_0. ring. }
  revert R. unfold residual_true. cbv zeta. rewrite Eb. cbn [map].
  rewrite (fill3 _ _ _ _ (repeat 0 m) (repeat 0 m) (repeat 0 m) (Row 0%nat ltac:(lia)) (Row 1%nat ltac:(lia)) (Row 2%nat ltac:(lia))) by (rewrite map_length, repeat_length; lia). cbn [bind].
  rewrite !norm_rows_eq. cbn [map mapM].
  assert (NE : forall l : list num, length l = m -> exists d, norm_all l = Ok d) by (intros l Hl; apply norm_all_ok; intros ->; cbn in Hl; lia).
  destruct (NE b0 B0) as [q0 Q0]. destruct (NE b1 B1) as [q1 Q1]. destruct (NE b2 B2) as [q2 Q2].
  destruct (NE (map Fin (repeat 0 m))) as [p0 P0]; [rewrite map_length; apply repeat_length|]. rewrite Q0, Q1, Q2, P0. cbn [bind map2]. apply norm_zero in P0. subst p0.
  rewrite !map2_minus_zeros by (match goal with H : norm_all ?b = Ok ?q |- length ?q = m => rewrite (norm_all_len _ _ H); assumption end).
  intros R. apply Ok_inj in R. cbn [concat] in R. rewrite app_nil_r in R. subst r. exists b0, b1, b2, q0, q1, q2. repeat (split; [assumption || reflexivity|]). exact Er.
Qed.

Lemma best_exists_amp a c n p0 : comparable a -> fa_illum a = illum_parabolic -> (forall i, (1 <= i <= 4)%nat -> In (Z.of_nat i) (cf_excluded c)) -> 0 < nth 2 (cf_fixed c) 0 ->
  allowed c n p0 -> (forall p, allowed c n p -> nth 0 p 0 <> 0 -> varies a p) ->
  exists q r, allowed c n q /\ explained a q r /\ forall q' r', allowed c n q' -> explained a q' r' -> sum_sq r <= sum_sq r'.
Proof.
  intros HC Hill HX Hq H0 HV. set (f i := nth i (cf_fixed c) 0).
  assert (Sh : forall p, allowed c n p -> exists s K, p = s :: f 1%nat :: f 2%nat :: f 3%nat :: f 4%nat :: K /\ (2 * length K = (n + 1) * (n + 2))%nat).
  { intros p Hp. destruct (allowed_split _ _ _ Hp) as (J & K & -> & LJ). destruct J as [|s [|j1 [|j2 [|j3 [|j4 [|j5 J]]]]]]; try discriminate LJ. exists s, K.
    pose proof (allowed_fixed c n _ K 1 LJ ltac:(lia) (HX 1%nat ltac:(lia)) Hp) as E1. pose proof (allowed_fixed c n _ K 2 LJ ltac:(lia) (HX 2%nat ltac:(lia)) Hp) as E2.
    pose proof (allowed_fixed c n _ K 3 LJ ltac:(lia) (HX 3%nat ltac:(lia)) Hp) as E3. pose proof (allowed_fixed c n _ K 4 LJ ltac:(lia) (HX 4%nat ltac:(lia)) Hp) as E4. cbn [nth] in E1, E2, E3, E4. subst j1 j2 j3 j4. split; [reflexivity|].
    destruct Hp as [Lp _]. rewrite app_length, LJ in Lp. pose proof (coeffs_twice n). lia. }
  assert (Zr : exists r0, forall K r, (2 * length K = (n + 1) * (n + 2))%nat -> explained a (0 :: f 1%nat :: f 2%nat :: f 3%nat :: f 4%nat :: K) r -> r = r0).
  { destruct (Sh _ H0) as (s0 & K0 & _ & LK0). destruct (zero_residual a (f 1%nat) (f 2%nat) (f 3%nat) (f 4%nat) K0 n HC Hill Hq LK0) as (b0 & b1 & b2 & d0 & d1 & d2 & Eb & D0 & D1 & D2 & _).
    exists (d0 ++ d1 ++ d2). intros K r LK Er. destruct (zero_residual a (f 1%nat) (f 2%nat) (f 3%nat) (f 4%nat) K n HC Hill Hq LK) as (b0' & b1' & b2' & d0' & d1' & d2' & Eb' & D0' & D1' & D2' & Er').
    unfold explained in Er, Er'. rewrite Er' in Er. apply Ok_inj in Er. rewrite Eb in Eb'. injection Eb' as <- <- <-. congruence. }
  destruct Zr as (r0 & Zr).
  assert (Def : forall s K, (2 * length K = (n + 1) * (n + 2))%nat -> exists r, explained a (s :: f 1%nat :: f 2%nat :: f 3%nat :: f 4%nat :: K) r).
  { intros s K LK. destruct (proj1 (par_arity [s; f 1%nat; f 2%nat; f 3%nat; f 4%nat] (tel_pr (fa_tel a))) eq_refl) as [Ea HE].
    apply (explained_ok a [s; f 1%nat; f 2%nat; f 3%nat; f 4%nat] K n Ea HC eq_refl LK). rewrite Hill. exact HE. }
  assert (Hpr : 0 < tel_pr (fa_tel a)) by (destruct HC as (_ & H & _); exact H).
  destruct (classic (exists s K, s <> 0 /\ allowed c n (s :: f 1%nat :: f 2%nat :: f 3%nat :: f 4%nat :: K))) as [(s & K1 & Hs & H1)|No].
  - set (I := [s; f 1%nat; f 2%nat; f 3%nat; f 4%nat]). destruct (proj1 (par_arity I (tel_pr (fa_tel a))) eq_refl) as [Ea HE].
    assert (LK1 : length I = 5%nat) by reflexivity. change (s :: f 1%nat :: f 2%nat :: f 3%nat :: f 4%nat :: K1) with (I ++ K1) in H1.
    pose proof (proj1 (allowed_box c n I K1 LK1) H1) as [HB B1].
    destruct (best_K a I n Ea (lows c n) (highs c n) K1 HC LK1 (lows_length c n) ltac:(rewrite Hill; exact HE) B1) as (K & HK & Best).
    { intros K HK. apply HV; [apply allowed_box; [reflexivity|split; assumption]|exact Hs]. }
    assert (LK : (2 * length K = (n + 1) * (n + 2))%nat) by (rewrite (inbox_length _ _ _ HK); apply lows_length).
    destruct (Def s K LK) as (r & Er).
    assert (Hqa : allowed c n (I ++ K)) by (apply allowed_box; [reflexivity|split; assumption]).
    assert (Nz : forall s' K' r', s' <> 0 -> allowed c n (s' :: f 1%nat :: f 2%nat :: f 3%nat :: f 4%nat :: K') -> explained a (s' :: f 1%nat :: f 2%nat :: f 3%nat :: f 4%nat :: K') r' -> sum_sq r <= sum_sq r').
    { intros s' K' r' Hs' Ha' Er'. change (s' :: f 1%nat :: f 2%nat :: f 3%nat :: f 4%nat :: K') with ([s'; f 1%nat; f 2%nat; f 3%nat; f 4%nat] ++ K') in Ha'. apply allowed_box in Ha' as [_ HK']; [|reflexivity].
      specialize (Best K' HK'). rewrite (cost_of a (I ++ K) r Er) in Best. rewrite (cost_of a (I ++ K') r') in Best; [exact Best|].
      unfold explained in Er' |- *. rewrite Hill in Er' |- *. rewrite <- Er'. apply residual_amplitude; assumption. }
    destruct (classic (exists K', allowed c n (0 :: f 1%nat :: f 2%nat :: f 3%nat :: f 4%nat :: K') /\ sum_sq r0 < sum_sq r)) as [(K' & Ha' & Hlt)|NoZ].
    + pose proof Ha' as Ha''. apply Sh in Ha'' as (s2 & K2 & E2 & LK2). injection E2 as _ <-. destruct (Def 0 K' LK2) as (r' & Er'). pose proof (Zr K' r' LK2 Er') as ->.
      eexists _, _. split; [exact Ha'|]. split; [exact Er'|]. intros q2 r2 Hq2 Er2. destruct (Sh _ Hq2) as (s3 & K3 & -> & LK3). destruct (Req_dec s3 0) as [->|N3].
      * rewrite (Zr K3 r2 LK3 Er2). lra.
      * pose proof (Nz s3 K3 r2 N3 Hq2 Er2). lra.
    + exists (I ++ K), r. split; [exact Hqa|]. split; [exact Er|]. intros q2 r2 Hq2 Er2. destruct (Sh _ Hq2) as (s3 & K3 & -> & LK3). destruct (Req_dec s3 0) as [->|N3].
      * rewrite (Zr K3 r2 LK3 Er2). apply Rnot_lt_le. intros L. apply NoZ. exists K3. auto.
      * exact (Nz s3 K3 r2 N3 Hq2 Er2).
  - assert (Only : forall p, allowed c n p -> exists K, p = 0 :: f 1%nat :: f 2%nat :: f 3%nat :: f 4%nat :: K /\ (2 * length K = (n + 1) * (n + 2))%nat).
    { intros p Hp. destruct (Sh _ Hp) as (s & K & -> & LK). exists K. destruct (Req_dec s 0) as [->|N]; [auto|]. exfalso. apply No. exists s, K. auto. }
    destruct (Only _ H0) as (K0 & -> & LK0). destruct (Def 0 K0 LK0) as (r & Er). eexists _, _. split; [exact H0|]. split; [exact Er|].
    intros q' r' Hq' Er'. destruct (Only _ Hq') as (K' & -> & LK'). rewrite (Zr _ _ LK0 Er), (Zr _ _ LK' Er'). lra.
Qed.
