(** The radiation pattern is the far field of the aperture; what a residual is. *)
From Coq Require Import List ZArith Lia Lra.
From Verif Require Import PyBase PyLib Sums Num MMath MAperture MTel MRad SZernike SRad SCore PIllum PAper PFft PRad MCore PNorm PResid PSim SPlot PPlot3 PPlot4.
From Coquelicot Require Import Complex.
Import ListNotations.
Open Scope R_scope.

Lemma gx_sample box N i : (2 <= N)%nat -> gx box N i = sample box N i.
Proof. intros H. unfold gx, sample. rewrite minus_INR by lia. cbn [INR]. assert (1 < INR N) by (apply (lt_INR 1); lia). field. lra. Qed.

Lemma far_sample E box N wavel q p : (2 <= N)%nat -> box <> 0 -> wavel <> 0 ->
  let h := wavel * (INR N - 1) / (2 * box * INR N) in
  centred E box N q p = Cmult (cis (- (2 * PI * (box * (IZR p * h + IZR q * h) / wavel)))) (far_field E box N wavel (IZR p * h) (IZR q * h)).
Proof.
  intros HN Hb Hw h. unfold centred, far_field. rewrite <- Csum_scal. apply Csum_ext. intros a Ha. rewrite <- Csum_scal. apply Csum_ext. intros b Hb'.
  rewrite !gx_sample by exact HN. rewrite (Cmult_comm (cis _)), <- Cmult_assoc. f_equal. rewrite <- cis_plus. f_equal. unfold h, sample.
  assert (1 < INR N) by (apply (lt_INR 1); lia). field. repeat split; lra.
Qed.

Section far.
Variables (illum : list R -> R -> res (R -> R -> R)) (tel : telgeo) (I K : list R) (d_z wavel : R) (N : nat) (bf : R) (n : nat) (Ea : R -> R -> R).
Hypothesis (Hw : 0 < wavel) (Hp : 0 < tel_pr tel) (Hb : 0 < bf) (HN : (2 <= N)%nat) (HK : (2 * length K = (n + 1) * (n + 2))%nat) (HI : illum I (tel_pr tel) = Ok Ea).

Lemma far_ok : exists u v F, radiation_pattern illum tel I K d_z wavel N bf = Ok (u, v, F) /\ length u = N /\ length v = N /\ length F = N /\ (forall row, In row F -> length row = N) /\
  forall r c, (r < N)%nat -> (c < N)%nat ->
    at2 F r c = Cmult (cis (- (2 * PI * (tel_pr tel * bf * (nth c u 0 + nth r v 0) / wavel))))
      (far_field (aperture_field tel Ea n K d_z wavel) (tel_pr tel * bf) N wavel (nth c u 0) (nth r v 0)).
Proof.
  destruct (aperture_ok illum tel I K d_z wavel n Ea HK HI) as (E & HE & Hv).
  assert (X : exists u v F, radiation_pattern illum tel I K d_z wavel N bf = Ok (u, v, F)).
  { rewrite rad_unfold by assumption. cbv zeta. rewrite HE. cbn [bind]. eexists _, _, _. reflexivity. }
  destruct X as (u & v & F & X). exists u, v, F. split; [exact X|]. destruct (axes_api _ _ _ _ _ _ _ _ _ _ _ Hw Hp Hb X) as (<- & Lu & LF & LR & _ & A). cbv zeta in A. destruct A as (_ & An & _).
  split; [exact Lu|]. split; [exact Lu|]. split; [exact LF|]. split; [exact LR|]. intros r c Hr Hc. apply rad_inv in X. destruct X as (_ & E' & HE' & -> & _). rewrite HE in HE'. apply Ok_inj in HE'. subst E'.
  rewrite rad_sample by assumption. rewrite (far_sample E (tel_pr tel * bf) N wavel) by (try lia; try lra; apply Rgt_not_eq, Rmult_lt_0_compat; assumption).
  assert (G : forall k, (k < N)%nat -> IZR (Z.of_nat k - Z.of_nat (N / 2)) * (wavel * (INR N - 1) / (2 * (tel_pr tel * bf) * INR N)) = nth k u 0).
  { intros k Hk. rewrite (An k Hk). rewrite minus_IZR, <- !INR_IZR_INZ. rewrite (Rmult_comm bf). reflexivity. }
  rewrite !G by assumption. f_equal. unfold far_field. apply Csum_ext. intros a Ha. apply Csum_ext. intros b Hb'. rewrite Hv. reflexivity.
Qed.
Lemma far_field_api : exists u v F, radiation_pattern illum tel I K d_z wavel N bf = Ok (u, v, F) /\ length u = N /\ length v = N /\
  forall r c, (r < N)%nat -> (c < N)%nat ->
    let G := far_field (aperture_field tel Ea n K d_z wavel) (tel_pr tel * bf) N wavel (nth c u 0) (nth r v 0) in
    at2 F r c = Cmult (cis (- (2 * PI * (tel_pr tel * bf * (nth c u 0 + nth r v 0) / wavel)))) G /\ Cmod (at2 F r c) = Cmod G.
Proof.
  destruct far_ok as (u & v & F & E & Lu & Lv & _ & _ & H). exists u, v, F. split; [exact E|]. split; [exact Lu|]. split; [exact Lv|]. intros r c Hr Hc G. split; [apply H; assumption|].
  rewrite (H r c Hr Hc). rewrite Cmod_mult, cis_mod. apply Rmult_1_l.
Qed.

(** The interpolated power at a point of the grid's extent. *)
Lemma interp_far u v F x y : radiation_pattern illum tel I K d_z wavel N bf = Ok (u, v, F) -> in_bounds u x = true -> in_bounds v y = true ->
  interpolates (fun a b => Cmod (far_field (aperture_field tel Ea n K d_z wavel) (tel_pr tel * bf) N wavel a b) ^ 2) (grid_step (tel_pr tel) wavel N bf) N x y
    (interp2 u v (power_pattern F) x y).
Proof.
  intros X Bx By. destruct (axes_api _ _ _ _ _ _ _ _ _ _ _ Hw Hp Hb X) as (Ev & Lu & LF & LR & _ & A). cbv zeta in A. destruct A as (Hs & An & _ & Inc). subst v.
  fold (grid_step (tel_pr tel) wavel N bf) in *. set (h := grid_step (tel_pr tel) wavel N bf) in *.
  assert (IU : increasing u) by (intros a b Hab; apply Inc; lia).
  destruct (find_cell u x IU ltac:(lia) Bx) as [I1 I2]. destruct (find_cell u y IU ltac:(lia) By) as [J1 J2]. unfold interp2. set (i := find_index u x) in *. set (j := find_index u y) in *. cbv zeta in *.
  destruct far_ok as (u' & v' & F' & X' & _ & _ & _ & _ & HF). rewrite X in X'. apply Ok_inj in X'. injection X' as <- <- <-.
  set (P := fun a b => Cmod (far_field (aperture_field tel Ea n K d_z wavel) (tel_pr tel * bf) N wavel a b) ^ 2).
  assert (PW : forall a b, (a < N)%nat -> (b < N)%nat -> nth a (nth b (power_pattern F) []) 0 = P (nth a u 0) (nth b u 0)).
  { intros a b Ha Hb'. rewrite (power_at F b a N LF LR Hb' Ha), (HF b a Hb' Ha), Cmod_mult, cis_mod, Rmult_1_l. reflexivity. }
  rewrite !PW by lia. rewrite !An in * by lia. rewrite !plus_INR in *. cbn [INR] in *.
  set (k := INR (N / 2)) in *. set (a := INR i) in *. set (b := INR j) in *.
  assert (N2 : (N / 2 <= N - 1)%nat) by (apply Nat.lt_le_pred in HN; pose proof (Nat.div_lt N 2 ltac:(lia) ltac:(lia)); lia).
  exists (Z.of_nat i - Z.of_nat (N / 2))%Z, (Z.of_nat j - Z.of_nat (N / 2))%Z, ((x - (a - k) * h) / h), ((y - (b - k) * h) / h).
  rewrite !minus_IZR, <- !INR_IZR_INZ. fold a b k.
  split; [lia|]. split; [lia|]. split; [lia|]. split; [lia|].
  assert (Q : forall z w, (w - k) * h <= z <= (w + 1 - k) * h -> 0 <= (z - (w - k) * h) / h <= 1).
  { intros z w [Q1 Q2]. split; [apply Rmult_le_pos; [lra|apply Rlt_le, Rinv_0_lt_compat, Hs]|]. apply (Rmult_le_reg_r h); [exact Hs|]. unfold Rdiv. rewrite Rmult_assoc, Rinv_l by lra. lra. }
  split; [apply Q, I2|]. split; [apply Q, J2|]. split; [field; lra|]. split; [field; lra|].
  replace ((a + 1 - k) * h - (a - k) * h) with h by ring. replace ((b + 1 - k) * h - (b - k) * h) with h by ring.
  replace (a + 1 - k) with (a - k + 1) by ring. replace (b + 1 - k) with (b - k + 1) by ring. reflexivity.
Qed.
End far.

Lemma Forall2_len {A B} (P : A -> B -> Prop) l m : Forall2 P l m -> length l = length m.
Proof. induction 1; cbn; congruence. Qed.

(** One row of the model. *)
Lemma row_far illum tel params u_data v_data d_z wavel N bf i r n Ea z : 0 < wavel -> 0 < tel_pr tel -> 0 < bf ->
  (2 * (length params - 5) = (n + 1) * (n + 2))%nat -> illum (firstn 5 params) (tel_pr tel) = Ok Ea -> nth_error d_z i = Some z ->
  model_row illum tel params u_data v_data d_z wavel N bf i = Ok r ->
  exists xs ys, nth_error u_data i = Some xs /\ nth_error v_data i = Some ys /\ length xs = length ys /\
  Forall2 (fun xy val => interpolates (fun a b => Cmod (far_field (aperture_field tel Ea n (skipn 5 params) z wavel) (tel_pr tel * bf) N wavel a b) ^ 2) (grid_step (tel_pr tel) wavel N bf) N (fst xy) (snd xy) val)
    (combine xs ys) r.
Proof.
  intros Hw Hp Hb HK HI Hz E. unfold model_row in E. apply bind_ok in E. destruct E as (dz & Ed & E). unfold py_get in Ed. rewrite Hz in Ed. apply Ok_inj in Ed. subst dz.
  apply bind_ok in E. destruct E as ([[u v] F] & EF & E). apply bind_ok in E. destruct E as (xs & Ex & E). apply bind_ok in E. destruct E as (ys & Ey & E).
  unfold py_get in Ex, Ey. destruct (nth_error u_data i) as [xs'|]; [|discriminate]. destruct (nth_error v_data i) as [ys'|]; [|discriminate]. apply Ok_inj in Ex, Ey. subst xs' ys'.
  unfold interp_points in E. destruct (Nat.eqb_spec (length xs) (length ys)) as [L|]; [|discriminate]. destruct (forallb (in_bounds u) xs) eqn:Bx; [|discriminate]. destruct (forallb (in_bounds v) ys) eqn:By; [|discriminate].
  cbn [andb] in E. apply Ok_inj in E. subst r. exists xs, ys. split; [reflexivity|]. split; [reflexivity|]. split; [exact L|].
  destruct (rad_inv _ _ _ _ _ _ _ _ _ _ _ EF) as (HN & _). clear - Hw Hp Hb HK HI EF HN L Bx By. revert ys L By. induction xs as [|x xs IH]; intros [|y ys] L By; try discriminate; [constructor|].
  cbn [forallb] in Bx, By. apply andb_prop in Bx, By. destruct Bx as [B1 B2], By as [C1 C2]. cbn [combine map2]. constructor; [|apply IH; [exact B2|cbn in L; congruence|exact C2]]. cbn [fst snd].
  eapply interp_far; try eassumption. rewrite skipn_length. exact HK.
Qed.

Lemma assign_same (m : list (list R)) i r m' : assign_row m i r = Ok m' -> (forall old, nth_error m i = Some old -> length r = length old) -> (i < length m)%nat /\ m' = set_nth m i r.
Proof.
  intros E L. unfold assign_row in E. apply bind_ok in E. destruct E as (old & Eo & E). unfold py_get in Eo. destruct (nth_error m i) as [o|] eqn:EN; [|discriminate]. apply Ok_inj in Eo. subst o.
  assert (LI : (i < length m)%nat) by (apply nth_error_Some; congruence). rewrite (proj2 (Nat.eqb_eq _ _) (L old eq_refl)) in E. unfold py_set in E. destruct (Nat.ltb_spec i (length m)); [|lia].
  apply Ok_inj in E. split; [exact LI|congruence].
Qed.

Lemma residual_far illum tel params b0 b1 b2 x0 x1 x2 y0 y1 y2 z0 z1 z2 wavel N bf n Ea r : 0 < wavel -> 0 < tel_pr tel -> 0 < bf ->
  (2 * (length params - 5) = (n + 1) * (n + 2))%nat -> illum (firstn 5 params) (tel_pr tel) = Ok Ea ->
  length x0 = length b0 -> length x1 = length b1 -> length x2 = length b2 ->
  residual_true illum tel params [b0; b1; b2] [x0; x1; x2] [y0; y1; y2] [z0; z1; z2] wavel N bf = Ok r ->
  let modelled z x y m := length m = length x /\ length y = length x /\
     Forall2 (fun xy val => interpolates (fun a b => Cmod (far_field (aperture_field tel Ea n (skipn 5 params) z wavel) (tel_pr tel * bf) N wavel a b) ^ 2) (grid_step (tel_pr tel) wavel N bf) N (fst xy) (snd xy) val)
       (combine x y) m in
  exists m0 m1 m2 d0 d1 d2 p0 p1 p2, modelled z0 x0 y0 m0 /\ modelled z1 x1 y1 m1 /\ modelled z2 x2 y2 m2 /\
    normalised b0 (map Fin d0) /\ normalised b1 (map Fin d1) /\ normalised b2 (map Fin d2) /\
    normalised (map Fin m0) (map Fin p0) /\ normalised (map Fin m1) (map Fin p1) /\ normalised (map Fin m2) (map Fin p2) /\
    r = map2 Rminus d0 p0 ++ map2 Rminus d1 p1 ++ map2 Rminus d2 p2.
Proof.
  intros Hw Hp Hb HK HI L0 L1 L2 E modelled. unfold residual_true in E. apply bind_ok in E. destruct E as (bm & EB & E). apply bind_ok in E. destruct E as (data & ED & E). apply bind_ok in E. destruct E as (model & EM & E). apply Ok_inj in E. subst r.
  cbn [fill_rows map] in EB. apply bind_ok in EB. destruct EB as (m0 & R0 & EB). apply bind_ok in EB. destruct EB as (M0 & A0 & EB). apply bind_ok in EB. destruct EB as (m1 & R1 & EB). apply bind_ok in EB. destruct EB as (M1 & A1 & EB).
  apply bind_ok in EB. destruct EB as (m2 & R2 & EB). apply bind_ok in EB. destruct EB as (M2 & A2 & EB). apply Ok_inj in EB. subst bm.
  assert (MM : forall i z m x y, nth_error [z0; z1; z2] i = Some z -> nth_error [x0; x1; x2] i = Some x -> nth_error [y0; y1; y2] i = Some y -> model_row illum tel params [x0; x1; x2] [y0; y1; y2] [z0; z1; z2] wavel N bf i = Ok m -> modelled z x y m).
  { intros i z m x y Hz Hx Hy R. destruct (row_far _ _ _ _ _ _ _ _ _ _ _ _ _ _ Hw Hp Hb HK HI Hz R) as (xs & ys & Ex & Ey & Lxy & F). rewrite Hx in Ex. injection Ex as <-. rewrite Hy in Ey. injection Ey as <-.
    split; [|split; [symmetry; exact Lxy|exact F]]. apply Forall2_len in F. rewrite combine_length in F. lia. }
  pose proof (MM 0%nat z0 m0 x0 y0 eq_refl eq_refl eq_refl R0) as Q0. pose proof (MM 1%nat z1 m1 x1 y1 eq_refl eq_refl eq_refl R1) as Q1. pose proof (MM 2%nat z2 m2 x2 y2 eq_refl eq_refl eq_refl R2) as Q2.
  apply assign_same in A0; [|intros old Ho; cbn in Ho; injection Ho as <-; rewrite map_length, (proj1 Q0); exact L0]. destruct A0 as [_ ->]. cbn [set_nth] in A1.
  apply assign_same in A1; [|intros old Ho; cbn in Ho; injection Ho as <-; rewrite map_length, (proj1 Q1); exact L1]. destruct A1 as [_ ->]. cbn [set_nth] in A2.
  apply assign_same in A2; [|intros old Ho; cbn in Ho; injection Ho as <-; rewrite map_length, (proj1 Q2); exact L2]. destruct A2 as [_ ->]. cbn [set_nth map] in EM.
  rewrite norm_rows_eq in ED, EM. cbn [mapM] in ED, EM.
  apply bind_ok in ED. destruct ED as (d0 & D0 & ED). apply bind_ok in ED. destruct ED as (w1 & ED' & ED). apply Ok_inj in ED. subst data. apply bind_ok in ED'. destruct ED' as (d1 & D1 & ED). apply bind_ok in ED. destruct ED as (w2 & ED' & ED). apply Ok_inj in ED. subst w1. apply bind_ok in ED'. destruct ED' as (d2 & D2 & ED). apply bind_ok in ED. destruct ED as (w3 & ED' & ED). apply Ok_inj in ED', ED. subst w3 w2.
  apply bind_ok in EM. destruct EM as (p0 & P0 & EM). apply bind_ok in EM. destruct EM as (w1 & EM' & EM). apply Ok_inj in EM. subst model. apply bind_ok in EM'. destruct EM' as (p1 & P1 & EM). apply bind_ok in EM. destruct EM as (w2 & EM' & EM). apply Ok_inj in EM. subst w1. apply bind_ok in EM'. destruct EM' as (p2 & P2 & EM). apply bind_ok in EM. destruct EM as (w3 & EM' & EM). apply Ok_inj in EM', EM. subst w3 w2.
  exists m0, m1, m2, d0, d1, d2, p0, p1, p2. split; [exact Q0|]. split; [exact Q1|]. split; [exact Q2|].
  do 6 (split; [apply norm_all_normalised; assumption|]). cbn [map2 concat]. rewrite app_nil_r. reflexivity.
Qed.

Lemma linear_unique (g : Z -> R) i s i' s' : 0 <= s <= 1 -> 0 <= s' <= 1 -> IZR i + s = IZR i' + s' -> (1 - s) * g i + s * g (i + 1)%Z = (1 - s') * g i' + s' * g (i' + 1)%Z.
Proof.
  intros Hs Hs' E. assert (D : IZR (i' - i) = s - s') by (rewrite minus_IZR; lra). assert (K : (i' - i = -1 \/ i' - i = 0 \/ i' - i = 1)%Z).
  { assert (-1 <= IZR (i' - i) <= 1) by lra. destruct H as [H1 H2]. apply le_IZR in H1, H2. lia. }
  destruct K as [K|[K|K]]; rewrite K in D.
  - replace i with (i' + 1)%Z by lia. assert (s = 0 /\ s' = 1) as [-> ->] by lra. ring.
  - replace i' with i by lia. replace s' with s by lra. reflexivity.
  - replace i' with (i + 1)%Z by lia. assert (s = 1 /\ s' = 0) as [-> ->] by lra. ring.
Qed.
Lemma interpolates_unique P h N x y a b : h <> 0 -> interpolates P h N x y a -> interpolates P h N x y b -> a = b.
Proof.
  intros Hh (i & j & s & t & _ & _ & _ & _ & S1 & T1 & Ex & Ey & ->) (i' & j' & s' & t' & _ & _ & _ & _ & S2 & T2 & Ex' & Ey' & ->).
  assert (X : IZR i + s = IZR i' + s') by (apply (Rmult_eq_reg_r h); [congruence|exact Hh]). assert (Y : IZR j + t = IZR j' + t') by (apply (Rmult_eq_reg_r h); [congruence|exact Hh]).
  pose (g := fun k l => P (IZR k * h) (IZR l * h)).
  transitivity ((1 - s) * ((1 - t) * g i j + t * g i (j + 1)%Z) + s * ((1 - t) * g (i + 1)%Z j + t * g (i + 1)%Z (j + 1)%Z)); [unfold g; rewrite !plus_IZR; ring|].
  rewrite (linear_unique (g i) j t j' t' T1 T2 Y), (linear_unique (g (i + 1)%Z) j t j' t' T1 T2 Y).
  rewrite (linear_unique (fun k => (1 - t') * g k j' + t' * g k (j' + 1)%Z) i s i' s' S1 S2 X). unfold g. rewrite !plus_IZR. ring.
Qed.
Lemma interpolates_node P h N i j : (- Z.of_nat (N / 2) <= i < Z.of_nat (N - 1 - N / 2))%Z -> (- Z.of_nat (N / 2) <= j < Z.of_nat (N - 1 - N / 2))%Z ->
  interpolates P h N (IZR i * h) (IZR j * h) (P (IZR i * h) (IZR j * h)).
Proof. intros Hi Hj. exists i, j, 0, 0. repeat (split; [first [lia|lra]|]). ring. Qed.
