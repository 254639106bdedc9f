(** The residual depends continuously on the Zernike coefficients and the radial offsets. *)
From Coq Require Import String Ascii List ZArith Lia Lra.
From Verif Require Import PyBase PyLib Num MZernike SZernike MMath SMath MAperture MTel MRad MCore SCore MFs MOut MAux MSim SOut SFit SBest SGain SRecover SLip PNorm PRad PResid PSim PEnd PGain3 PBest PRecover PFar PFs.
From Coquelicot Require Import Complex.
Import ListNotations.
Open Scope R_scope.
Open Scope list_scope.

Lemma interp_diff u v vals vals' x y e : increasing u -> increasing v -> (2 <= length u)%nat -> (2 <= length v)%nat ->
  in_bounds u x = true -> in_bounds v y = true ->
  (forall i j, (i < length u)%nat -> (j < length v)%nat -> Rabs (nth i (nth j vals' []) 0 - nth i (nth j vals []) 0) <= e) ->
  Rabs (interp2 u v vals' x y - interp2 u v vals x y) <= e.
Proof.
  intros Hu Hv Lu Lv Bx By Hr. unfold interp2. cbv zeta.
  destruct (find_cell u x Hu Lu Bx) as [Ix Cx]. destruct (find_cell v y Hv Lv By) as [Iy Cy].
  set (i := find_index u x) in *. set (j := find_index v y) in *.
  assert (T : forall a b c, a <= c <= b -> a < b -> 0 <= (c - a) / (b - a) <= 1).
  { intros a b c Hc Hab. split; [apply Rmult_le_pos; [lra|left; apply Rinv_0_lt_compat; lra]|]. apply Rmult_le_reg_r with (b - a); [lra|]. unfold Rdiv. rewrite Rmult_assoc, Rinv_l by lra. lra. }
  pose proof (T _ _ _ Cx (Hu i (i + 1)%nat ltac:(lia))) as Tx. pose proof (T _ _ _ Cy (Hv j (j + 1)%nat ltac:(lia))) as Ty.
  set (tx := (x - _) / _) in *. set (ty := (y - _) / _) in *. clearbody tx ty.
  pose proof (Hr i j ltac:(lia) ltac:(lia)) as P1. pose proof (Hr i (j + 1)%nat ltac:(lia) ltac:(lia)) as P2.
  pose proof (Hr (i + 1)%nat j ltac:(lia) ltac:(lia)) as P3. pose proof (Hr (i + 1)%nat (j + 1)%nat ltac:(lia) ltac:(lia)) as P4.
  apply Rabs_le_iff in P1. apply Rabs_le_iff in P2. apply Rabs_le_iff in P3. apply Rabs_le_iff in P4. apply Rabs_le_iff.
  set (p1 := nth i (nth j vals []) 0) in *. set (p2 := nth i (nth (j + 1) vals []) 0) in *. set (p3 := nth (i + 1) (nth j vals []) 0) in *. set (p4 := nth (i + 1) (nth (j + 1) vals []) 0) in *.
  set (q1 := nth i (nth j vals' []) 0) in *. set (q2 := nth i (nth (j + 1) vals' []) 0) in *. set (q3 := nth (i + 1) (nth j vals' []) 0) in *. set (q4 := nth (i + 1) (nth (j + 1) vals' []) 0) in *.
  clearbody p1 p2 p3 p4 q1 q2 q3 q4.
  assert (W1 : 0 <= (1 - tx) * (1 - ty)) by (apply Rmult_le_pos; lra). assert (W2 : 0 <= (1 - tx) * ty) by (apply Rmult_le_pos; lra).
  assert (W3 : 0 <= tx * (1 - ty)) by (apply Rmult_le_pos; lra). assert (W4 : 0 <= tx * ty) by (apply Rmult_le_pos; lra).
  assert (SW : (1 - tx) * (1 - ty) + (1 - tx) * ty + tx * (1 - ty) + tx * ty = 1) by ring.
  set (w1 := (1 - tx) * (1 - ty)) in *. set (w2 := (1 - tx) * ty) in *. set (w3 := tx * (1 - ty)) in *. set (w4 := tx * ty) in *. clearbody w1 w2 w3 w4.
  assert (M : forall w p q, 0 <= w -> - e <= q - p <= e -> - (w * e) <= w * q - w * p <= w * e) by (intros; nra).
  pose proof (M _ _ _ W1 P1). pose proof (M _ _ _ W2 P2). pose proof (M _ _ _ W3 P3). pose proof (M _ _ _ W4 P4).
  assert (w1 * e + w2 * e + w3 * e + w4 * e = e) by (rewrite <- !Rmult_plus_distr_r, SW; ring). lra.
Qed.

(** ** One modelled map *)
Section rows.
Context (illum : list R -> R -> res (R -> R -> R)) (tel : telgeo) (I K K' : list R) (u_data v_data : list (list R)) (wavel : R) (N : nat) (bf : R) (n : nat) (Ea : R -> R -> R) (Dz : R).
Hypothesis HI : length I = 5%nat.
Hypothesis Hp : 0 < tel_pr tel.
Hypothesis Hw : 0 < wavel.
Hypothesis Hb : 0 < bf.
Hypothesis HK : (2 * length K = (n + 1) * (n + 2))%nat.
Hypothesis HK' : length K' = length K.
Hypothesis HE : illum I (tel_pr tel) = Ok Ea.
Hypothesis Hout : forall x y, tel_pr tel ^ 2 < x ^ 2 + y ^ 2 -> block_dist tel x y = 0.

Lemma row_lip d_z d_z' i z z' m m' : nth_error d_z i = Some z -> nth_error d_z' i = Some z' ->
  (forall x y, x ^ 2 + y ^ 2 <= tel_pr tel ^ 2 -> Rabs (opd_func tel x y z' - opd_func tel x y z) <= Dz) ->
  model_row illum tel (I ++ K) u_data v_data d_z wavel N bf i = Ok m -> model_row illum tel (I ++ K') u_data v_data d_z' wavel N bf i = Ok m' ->
  close (4 * PI * (py_sum (map Rabs (map2 Rminus K' K)) + Dz / wavel) * over_samples (tel_pr tel * bf) N (fun x y => Rabs (block_dist tel x y * Ea x y)) ^ 2) m' m.
Proof.
  intros Ez Ez' Hz. set (e := 4 * PI * _ * _ ^ 2). unfold model_row.
  rewrite <- HI, !firstn_app, !firstn_all, Nat.sub_diag, !firstn_O, !app_nil_r, !skipn_app, skipn_all, Nat.sub_diag. cbn [app skipn]. unfold py_get. rewrite Ez, Ez'. cbn [bind].
  destruct (radiation_pattern illum tel I K z wavel N bf) as [[[u v] F]|] eqn:R; [|discriminate]. destruct (radiation_pattern illum tel I K' z' wavel N bf) as [[[u' v'] F']|] eqn:R'; [|discriminate]. cbn [bind].
  pose proof (power_stable_api illum tel I K K' z z' wavel N bf n Ea Dz u v F u' v' F' Hp Hw HK HK' HE Hout Hz R R') as P. fold e in P.
  destruct (stable_api illum tel I K K' z z' wavel N bf n Ea Dz u v F u' v' F' Hp Hw HK HK' HE Hout Hz R R') as (-> & -> & _).
  destruct (axes_api _ _ _ _ _ _ _ _ _ _ _ Hw Hp Hb R) as (<- & LU & LF & LR & LN & Hax). cbv zeta in Hax. destruct Hax as (_ & _ & _ & Hinc).
  destruct (axes_api _ _ _ _ _ _ _ _ _ _ _ Hw Hp Hb R') as (_ & _ & LF' & LR' & _).
  assert (HN : (2 <= N)%nat) by (apply rad_inv in R as [G _]; exact G).
  assert (Inc : increasing u) by (intros x y [X Y]; apply Hinc; lia).
  destruct (nth_error u_data i) as [xs|]; [|discriminate]. destruct (nth_error v_data i) as [ys|]; [|discriminate]. cbn [bind]. unfold interp_points.
  destruct (Nat.eqb (length xs) (length ys)); [|destruct xs as [|? [|? ?]], ys as [|? [|? ?]]; discriminate]. destruct (forallb (in_bounds u) xs) eqn:Bx; [|discriminate]. destruct (forallb (in_bounds u) ys) eqn:By; [|discriminate]. cbn [andb].
  intros E E'. apply Ok_inj in E. apply Ok_inj in E'. subst m m'.
  rewrite forallb_forall in Bx. rewrite forallb_forall in By. clear -Bx By P Inc LU LF LR LF' LR' HN. revert ys By. induction xs as [|x xs IH]; intros [|y ys] By; cbn [map2]; try constructor.
  - apply interp_diff; auto; try lia; [apply Bx; left; reflexivity|apply By; left; reflexivity|]. intros a b Ha Hb. rewrite (power_at F b a N), (power_at F' b a N) by (auto; lia). apply P; lia.
  - apply IH; intros t Ht; [apply Bx|apply By]; right; exact Ht.
Qed.
End rows.

(** ** The residual *)
Lemma three_lengths {A} (l : list (list A)) m : map (@length A) l = [m; m; m] -> exists a b c, l = [a; b; c] /\ length a = m /\ length b = m /\ length c = m.
Proof. destruct l as [|a [|b [|c [|d l]]]]; intros E; try discriminate. injection E as E1 E2 E3. exists a, b, c. auto. Qed.

Lemma norm_lip (b : list num) q m m' pm pm' e D : norm_all b = Ok q -> length m = length b -> length m' = length b -> 0 < D -> close e m' m -> (exists s t, In s m /\ In t m /\ D <= t - s) ->
  norm_all (map Fin m) = Ok pm -> norm_all (map Fin m') = Ok pm' -> Forall2 (fun x x' => Rabs (x' - x) <= 4 * e / D) (map2 Rminus q pm) (map2 Rminus q pm').
Proof.
  intros Eb L L' HD C H Em Em'. destruct (norm_close e D m' m pm' pm HD C H Em' Em) as (Lq & Lq' & B).
  assert (Lb : length q = length b). { unfold norm_all in Eb. destruct (np_min b); [|discriminate]. destruct (np_max b); [|discriminate]. apply Ok_inj in Eb. subst q. apply map_length. }
  assert (L1 : length q = length pm) by congruence. assert (L2 : length pm' = length pm) by congruence. clear -L1 L2 B. revert pm pm' L1 L2 B. induction q as [|x q IH]; intros [|s pm] [|s' pm'] L1 L2 B; cbn [length] in *; try lia; cbn [map2]; constructor.
  - specialize (B (s' - s) ltac:(cbn [map2]; left; reflexivity)). replace (x - s' - (x - s)) with (- (s' - s)) by ring. rewrite Rabs_Ropp. exact B.
  - apply IH; try lia. intros t Ht. apply B. cbn [map2]. right. exact Ht.
Qed.
Lemma Forall2_concat3 {A B} (P : A -> B -> Prop) a b c a' b' c' : Forall2 P a a' -> Forall2 P b b' -> Forall2 P c c' -> Forall2 P (concat [a; b; c]) (concat [a'; b'; c']).
Proof. intros H1 H2 H3. cbn [concat]. repeat (apply Forall2_app; [assumption|]). constructor. Qed.

Lemma residual_lip a I K K' d_z' Dz D n Ea r r' : comparable a -> length I = 5%nat -> (2 * length K = (n + 1) * (n + 2))%nat -> length K' = length K -> fa_illum a I (tel_pr (fa_tel a)) = Ok Ea ->
  length d_z' = 3%nat ->
  (forall i x y, (i < 3)%nat -> x ^ 2 + y ^ 2 <= tel_pr (fa_tel a) ^ 2 -> Rabs (opd_func (fa_tel a) x y (nth i d_z' 0) - opd_func (fa_tel a) x y (nth i (fa_d_z a) 0)) <= Dz) ->
  0 < D -> contrast a (I ++ K) D -> explained a (I ++ K) r ->
  residual_true (fa_illum a) (fa_tel a) (I ++ K') (fa_beam a) (fa_u a) (fa_v a) d_z' (fa_wavel a) (fa_resolution a) (fa_box_factor a) = Ok r' ->
  Forall2 (fun x x' => Rabs (x' - x) <=
    4 * (4 * PI * (py_sum (map Rabs (map2 Rminus K' K)) + Dz / fa_wavel a) * over_samples (tel_pr (fa_tel a) * fa_box_factor a) (fa_resolution a) (fun x y => Rabs (block_dist (fa_tel a) x y * Ea x y)) ^ 2) / D) r r'.
Proof.
  intros (Hw & Hp & Hb & HN & Hout & m & Hm & Lb & Lu & Lv & Lz & Hg) HI HK HK' HE Lz' Hz HD HC. unfold explained.
  destruct (three_lengths _ m Lb) as (b0 & b1 & b2 & Eb & B0 & B1 & B2). destruct (three_lengths _ m Lu) as (x0 & x1 & x2 & Eu & X0 & X1 & X2). destruct (three_lengths _ m Lv) as (y0 & y1 & y2 & Ev & Y0 & Y1 & Y2).
  set (e := 4 * PI * _ * _ ^ 2).
  assert (Tot : forall dz L, length dz = 3%nat -> length L = length K -> forall i, (i < 3)%nat -> exists row, model_row (fa_illum a) (fa_tel a) (I ++ L) (fa_u a) (fa_v a) dz (fa_wavel a) (fa_resolution a) (fa_box_factor a) i = Ok row /\ length row = m).
  { intros dz L Ldz LL i Hi.
    assert (Nz : exists z, nth_error dz i = Some z) by (destruct (nth_error dz i) eqn:E; [eauto|apply nth_error_None in E; lia]). destruct Nz as [z Ez].
    assert (Nx : exists xs ys, nth_error (fa_u a) i = Some xs /\ nth_error (fa_v a) i = Some ys /\ length xs = m /\ length ys = m /\ forall t, In t (xs ++ ys) -> In t (concat (fa_u a) ++ concat (fa_v a))).
    { rewrite Eu, Ev. destruct i as [|[|[|i]]]; [| | |lia]; cbn [nth_error]; eexists _, _; (split; [reflexivity|split; [reflexivity|split; [assumption|split; [assumption|]]]]); intros t Ht; cbn [concat]; rewrite !in_app_iff in *; tauto. }
    destruct Nx as (xs & ys & Ex & Ey & LX & LY & Hin).
    destruct (model_row_total (fa_illum a) (fa_tel a) (I ++ L) n (fa_u a) (fa_v a) dz (fa_wavel a) (fa_resolution a) (fa_box_factor a) i xs ys Ea z Hw Hp Hb HN) as [(_ & row & Er & Lr)|(G & _)].
    - rewrite app_length, HI. lia.
    - rewrite <- HI, firstn_app, firstn_all, Nat.sub_diag, firstn_O, app_nil_r. exact HE.
    - exact Ez.
    - exact Ex.
    - exact Ey.
    - lia.
    - exists row. split; [exact Er|lia].
    - exfalso. apply G. intros t Ht. apply Hg. apply Hin. exact Ht. }
  assert (Row : forall i, (i < 3)%nat -> exists mi mi', model_row (fa_illum a) (fa_tel a) (I ++ K) (fa_u a) (fa_v a) (fa_d_z a) (fa_wavel a) (fa_resolution a) (fa_box_factor a) i = Ok mi /\
     model_row (fa_illum a) (fa_tel a) (I ++ K') (fa_u a) (fa_v a) d_z' (fa_wavel a) (fa_resolution a) (fa_box_factor a) i = Ok mi' /\ length mi = m /\ length mi' = m /\ close e mi' mi /\ exists s t, In s mi /\ In t mi /\ D <= t - s).
  { intros i Hi. destruct (Tot (fa_d_z a) K Lz eq_refl i Hi) as (mi & Ei & Li). destruct (Tot d_z' K' Lz' HK' i Hi) as (mi' & Ei' & Li'). exists mi, mi'. split; [exact Ei|]. split; [exact Ei'|]. split; [exact Li|]. split; [exact Li'|]. split.
    - apply (row_lip (fa_illum a) (fa_tel a) I K K' (fa_u a) (fa_v a) (fa_wavel a) (fa_resolution a) (fa_box_factor a) n Ea Dz HI Hp Hw Hb HK HK' HE Hout (fa_d_z a) d_z' i (nth i (fa_d_z a) 0) (nth i d_z' 0)); [apply nth_error_nth'; lia|apply nth_error_nth'; lia| |exact Ei|exact Ei'].
      intros x y Hxy. apply Hz; assumption.
    - destruct (HC i Hi) as (mm & s & t & Em & Is & It & Hst). unfold modelled in Em. rewrite Ei in Em. apply Ok_inj in Em. subst mm. exists s, t. auto. }
  destruct (Row 0%nat ltac:(lia)) as (m0 & m0' & E0 & E0' & L0 & L0' & C0 & D0). destruct (Row 1%nat ltac:(lia)) as (m1 & m1' & E1 & E1' & L1 & L1' & C1 & D1). destruct (Row 2%nat ltac:(lia)) as (m2 & m2' & E2 & E2' & L2 & L2' & C2 & D2).
  unfold residual_true. cbv zeta. rewrite Eb. cbn [map].
  rewrite (fill3 _ _ _ _ m0 m1 m2 E0 E1 E2) by (rewrite !map_length; lia). rewrite (fill3 _ _ _ _ m0' m1' m2' E0' E1' E2') by (rewrite !map_length; lia). cbn [bind].
  rewrite !norm_rows_eq. cbn [map mapM].
  assert (NE : forall l : list num, length l = m -> exists q, norm_all l = Ok q) by (intros l Hl; apply norm_all_ok; intros ->; cbn in Hl; lia).
  destruct (NE b0 B0) as [q0 Q0]. destruct (NE b1 B1) as [q1 Q1]. destruct (NE b2 B2) as [q2 Q2].
  destruct (NE (map Fin m0)) as [p0 P0]; [rewrite map_length; exact L0|]. destruct (NE (map Fin m1)) as [p1 P1]; [rewrite map_length; exact L1|]. destruct (NE (map Fin m2)) as [p2 P2]; [rewrite map_length; exact L2|].
  destruct (NE (map Fin m0')) as [p0' P0']; [rewrite map_length; exact L0'|]. destruct (NE (map Fin m1')) as [p1' P1']; [rewrite map_length; exact L1'|]. destruct (NE (map Fin m2')) as [p2' P2']; [rewrite map_length; exact L2'|].
  rewrite Q0, Q1, Q2, P0, P1, P2, P0', P1', P2'. cbn [bind map2]. intros R R'. apply Ok_inj in R. apply Ok_inj in R'. subst r r'.
  apply Forall2_concat3.
  - apply (norm_lip b0 q0 m0 m0'); try assumption; lia.
  - apply (norm_lip b1 q1 m1 m1'); try assumption; lia.
  - apply (norm_lip b2 q2 m2 m2'); try assumption; lia.
Qed.
