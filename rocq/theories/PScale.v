(** C103: another unit of length. *)
From Coq Require Import Reals List Lia Lra String.
From Verif Require Import PyBase Sums PyLib Num MMath MTel MAperture MRad MCore MFs MOut SOut SFit SCore SBest SRecover SScale PPhase PFft PAper PRad PPlot4 PFit7 PBest PRecover PDemo PRecover3.
From Coquelicot Require Import Complex.
Import ListNotations.
Open Scope R_scope.
Open Scope list_scope.
Local Notation "a ^^ b" := (String.append a b) (at level 60, right associativity).

Lemma dist_scaled s x y : 0 < s -> sqrt ((s * x) ^ 2 + (s * y) ^ 2) = s * sqrt (x ^ 2 + y ^ 2).
Proof. intros H. replace ((s * x) ^ 2 + (s * y) ^ 2) with (s ^ 2 * (x ^ 2 + y ^ 2)) by ring. rewrite sqrt_mult by nra. rewrite sqrt_pow2 by lra. reflexivity. Qed.
Lemma angle_scaled s x y : 0 < s -> arctan2 (s * y) (s * x) = arctan2 y x.
Proof.
  intros H. unfold arctan2.
  assert (A : forall z, 0 < s * z <-> 0 < z) by (intros z; split; intros; nra). assert (B : forall z, s * z < 0 <-> z < 0) by (intros z; split; intros; nra). assert (D : forall z, 0 <= s * z <-> 0 <= z) by (intros z; split; intros; nra).
  assert (Q : x <> 0 -> s * y / (s * x) = y / x) by (intros; field; split; lra).
  destruct (Rlt_dec 0 (s * x)) as [X|X], (Rlt_dec 0 x) as [X'|X']; rewrite A in X; try contradiction; [rewrite Q by lra; reflexivity|].
  destruct (Rlt_dec (s * x) 0) as [Y|Y], (Rlt_dec x 0) as [Y'|Y']; rewrite B in Y; try contradiction.
  - rewrite Q by lra. destruct (Rle_dec 0 (s * y)) as [Z|Z], (Rle_dec 0 y) as [Z'|Z']; rewrite D in Z; try contradiction; reflexivity.
  - destruct (Rlt_dec 0 (s * y)) as [Z|Z], (Rlt_dec 0 y) as [Z'|Z']; rewrite A in Z; try contradiction; [reflexivity|].
    destruct (Rlt_dec (s * y) 0) as [V|V], (Rlt_dec y 0) as [V'|V']; rewrite B in V; try contradiction; reflexivity.
Qed.
Lemma gx_scaled s box N i : gx (s * box) N i = s * gx box N i.
Proof. unfold gx, Rdiv. ring. Qed.
Lemma lin_scaled s box N : linspace (- (s * box)) (s * box) N = map (Rmult s) (linspace (- box) box N).
Proof. unfold linspace. rewrite map_map. apply map_ext. intros i. unfold Rdiv. ring. Qed.
Lemma sampled_scaled s E E' box N : (forall x y, E' (s * x) (s * y) = E x y) -> sampled E' (s * box) N = sampled E box N.
Proof.
  intros H. unfold sampled, map2d, meshgrid. rewrite lin_scaled, !map_map. apply map_ext. intros y. rewrite !map_map. apply map_ext. intros x. apply H.
Qed.
Lemma axis_scaled s box wavel N : 0 < s -> (2 <= N)%nat -> box <> 0 ->
  map (fun f => f * (s * wavel)) (fftshift (fftfreq N (gx (s * box) N 1 - gx (s * box) N 0))) = map (fun f => f * wavel) (fftshift (fftfreq N (gx box N 1 - gx box N 0))).
Proof.
  intros Hs HN Hb. assert (L : forall d, length (fftshift (fftfreq N d)) = N) by (intros d; unfold fftshift; rewrite ?app_length, ?skipn_length, ?firstn_length, fftfreq_length by lia; lia).
  apply nth_ext with (d := 0) (d' := 0); [rewrite !map_length, !L; reflexivity|]. intros i Hi. rewrite map_length, L in Hi. rewrite !axis_nth; try assumption; [|intros E; apply Rmult_integral in E; destruct E; lra].
  assert (INR N <> 0) by (apply not_0_INR; lia). field. repeat split; try assumption; lra.
Qed.
Section Scale.
Variables (s : R) (illum : list R -> R -> res (R -> R -> R)) (tel tel' : telgeo).
Hypothesis (Hs : 0 < s) (Hp : 0 < tel_pr tel) (HT : magnified s tel tel') (HI : magnifies s illum (tel_pr tel)).
Lemma aperture_scaled i_amp c_dB q x0 y0 K d wavel : 0 < wavel ->
  match aperture illum tel [i_amp; c_dB; q; x0; y0] K d wavel, aperture illum tel' [i_amp; c_dB; q; s * x0; s * y0] K (s * d) (s * wavel) with
  | Ok E, Ok E' => forall x y, E' (s * x) (s * y) = E x y
  | Err e, Err e' => e = e'
  | _, _ => False
  end.
Proof.
  intros Hw. unfold aperture. destruct (wavefront K) as [W|e]; [|reflexivity]. cbn [bind]. destruct (HI i_amp c_dB q x0 y0) as (Ea & Ea' & E1 & E2 & E3). destruct HT as [P T]. rewrite P, E1, E2. cbn [bind].
  intros x y. unfold cart2pol. rewrite dist_scaled, angle_scaled by exact Hs. destruct (T x y d) as [T1 T2]. rewrite T1, T2, E3.
  replace (s * sqrt (x ^ 2 + y ^ 2) / (s * tel_pr tel)) with (sqrt (x ^ 2 + y ^ 2) / tel_pr tel) by (field; lra). replace (s * opd_func tel x y d / (s * wavel)) with (opd_func tel x y d / wavel) by (field; lra). reflexivity.
Qed.
Lemma radiation_scaled i_amp c_dB q x0 y0 K d wavel N bf : 0 < wavel -> 0 < bf ->
  radiation_pattern illum tel' [i_amp; c_dB; q; s * x0; s * y0] K (s * d) (s * wavel) N bf = radiation_pattern illum tel [i_amp; c_dB; q; x0; y0] K d wavel N bf.
Proof.
  intros Hw Hb. destruct (le_lt_dec 2 N) as [HN|HN]; [|rewrite !rad_small by exact HN; reflexivity]. rewrite !rad_unfold by exact HN. pose proof (aperture_scaled i_amp c_dB q x0 y0 K d wavel Hw) as A.
  destruct (aperture illum tel _ K d wavel) as [E|e], (aperture illum tel' _ K (s * d) (s * wavel)) as [E'|e']; try contradiction; cbn [bind]; [|rewrite A; reflexivity].
  destruct HT as [P _]. rewrite P. replace (s * tel_pr tel * bf) with (s * (tel_pr tel * bf)) by ring. rewrite (sampled_scaled s E E') by exact A. rewrite axis_scaled; [reflexivity|exact Hs|exact HN|].
  apply Rmult_integral_contrapositive_currified; lra.
Qed.
Lemma row_scaled p u v d wavel N bf i : 0 < wavel -> 0 < bf -> (5 <= length p)%nat ->
  model_row illum tel' (in_units s p) u v (map (Rmult s) d) (s * wavel) N bf i = model_row illum tel p u v d wavel N bf i.
Proof.
  intros Hw Hb L. destruct p as [|a [|b [|c [|x0 [|y0 K]]]]]; cbn in L; try lia. unfold model_row. cbn [in_units firstn skipn]. unfold py_get at 1 4. rewrite nth_error_map. destruct (nth_error d i) as [dz|]; [|reflexivity]. cbn [option_map bind].
  rewrite radiation_scaled by assumption. reflexivity.
Qed.
Lemma residual_scaled p beam u v d wavel N bf : 0 < wavel -> 0 < bf -> (5 <= length p)%nat ->
  residual_true illum tel' (in_units s p) beam u v (map (Rmult s) d) (s * wavel) N bf = residual_true illum tel p beam u v d wavel N bf.
Proof.
  intros Hw Hb L. unfold residual_true. f_equal. generalize (map (map (fun _ : num => 0)) beam). induction [0; 1; 2]%nat as [|i t IH]; intros m; [reflexivity|].
  cbn [fill_rows]. rewrite row_scaled by assumption. destruct (model_row _ _ _ _ _ _ _ _ _ _); [|reflexivity]. cbn [bind]. destruct (assign_row _ _ _); [|reflexivity]. cbn [bind]. apply IH.
Qed.
End Scale.

(** * Telescopes and illuminations *)
Lemma Rltb_scaled s x y x' y' : 0 < s -> x' = s * x -> y' = s * y -> Rltb x' y' = Rltb x y.
Proof. intros H -> ->. unfold Rltb. destruct (Rlt_dec (s * x) (s * y)) as [A|A], (Rlt_dec x y) as [B|B]; try reflexivity; exfalso; nra. Qed.
Lemma magnified_manual s pr sr a L Fp Ff : 0 < s -> magnified s {| block_dist := block_manual pr sr a L; opd_func := opd_manual Fp Ff; tel_pr := pr |}
  {| block_dist := block_manual (s * pr) (s * sr) (s * a) (s * L); opd_func := opd_manual (s * Fp) (s * Ff); tel_pr := s * pr |}.
Proof.
  intros H. split; [reflexivity|]. intros x y d. cbn [block_dist opd_func]. split.
  - unfold block_manual. assert (H2 : 0 < s ^ 2) by nra.
    rewrite (Rltb_scaled (s ^ 2) (x ^ 2 + y ^ 2) (pr ^ 2) ((s * x) ^ 2 + (s * y) ^ 2) ((s * pr) ^ 2)) by (exact H2 || ring). rewrite (Rltb_scaled (s ^ 2) (sr ^ 2) (x ^ 2 + y ^ 2) ((s * sr) ^ 2) ((s * x) ^ 2 + (s * y) ^ 2)) by (exact H2 || ring).
    rewrite (Rltb_scaled s (- (sr + L)) x (- (s * sr + s * L)) (s * x)), (Rltb_scaled s x (sr + L) (s * x) (s * sr + s * L)), (Rltb_scaled s (- a) y (- (s * a)) (s * y)), (Rltb_scaled s y a (s * y) (s * a)) by (exact H || ring).
    rewrite (Rltb_scaled s (- (sr + L)) y (- (s * sr + s * L)) (s * y)), (Rltb_scaled s y (sr + L) (s * y) (s * sr + s * L)), (Rltb_scaled s (- a) x (- (s * a)) (s * x)), (Rltb_scaled s x a (s * x) (s * a)) by (exact H || ring). reflexivity.
  - unfold opd_manual. rewrite dist_scaled by exact H. assert (Q : forall f, s * sqrt (x ^ 2 + y ^ 2) / (2 * (s * f)) = sqrt (x ^ 2 + y ^ 2) / (2 * f)).
    { intros f. unfold Rdiv. destruct (Req_dec f 0) as [->|E]; [rewrite !Rmult_0_r, Rinv_0; ring|field; lra]. }
    rewrite !Q. ring.
Qed.
Lemma magnifies_parabolic s pr : 0 < s -> magnifies s illum_parabolic pr.
Proof.
  intros H i_amp c_dB q x0 y0. eexists _, _. split; [reflexivity|]. split; [reflexivity|]. intros x y. cbv beta zeta. replace (s * x - s * x0) with (s * (x - x0)) by ring. replace (s * y - s * y0) with (s * (y - y0)) by ring.
  rewrite dist_scaled by exact H. replace (s * sqrt ((x - x0) ^ 2 + (y - y0) ^ 2) / (s * pr)) with (sqrt ((x - x0) ^ 2 + (y - y0) ^ 2) / pr); [reflexivity|].
  unfold Rdiv. destruct (Req_dec pr 0) as [->|E]; [rewrite !Rmult_0_r, Rinv_0; ring|field; lra].
Qed.
Lemma magnifies_gauss s pr : 0 < s -> magnifies s illum_gauss pr.
Proof.
  intros H i_amp c_dB q x0 y0. eexists _, _. split; [reflexivity|]. split; [reflexivity|]. intros x y. cbv beta zeta. f_equal. f_equal. set (g := Rpower 10 (c_dB / 20)).
  unfold Rdiv. destruct (Req_dec pr 0) as [->|E]; [rewrite !Rmult_0_r; cbn [pow]; rewrite !Rmult_0_l, !Rmult_0_r, Rinv_0; ring|].
  assert (g <> 0) by (unfold g, Rpower; apply Rgt_not_eq, exp_pos). field. repeat split; try assumption; lra.
Qed.

(** * Fits *)
Lemma units_len s p : length (in_units s p) = length p.
Proof. destruct p as [|a [|b [|c [|x [|y K]]]]]; reflexivity. Qed.
Lemma units_back s p : 0 < s -> in_units (/ s) (in_units s p) = p.
Proof. intros H. destruct p as [|a [|b [|c [|x [|y K]]]]]; try reflexivity. cbn [in_units]. repeat (f_equal; try (field; lra)). Qed.
Lemma units_forth s p : 0 < s -> in_units s (in_units (/ s) p) = p.
Proof. intros H. destruct p as [|a [|b [|c [|x [|y K]]]]]; try reflexivity. cbn [in_units]. repeat (f_equal; try (field; lra)). Qed.
Lemma units_nth s p i d : (5 <= length p)%nat -> nth i (in_units s p) d = (if (Nat.eqb i 3 || Nat.eqb i 4)%bool then s * nth i p d else nth i p d).
Proof. intros L. destruct p as [|a [|b [|c [|x [|y K]]]]]; cbn in L; try lia. destruct i as [|[|[|[|[|i]]]]]; reflexivity. Qed.
Lemma units_pad s p k : (5 <= length p)%nat -> in_units s (p ++ k) = in_units s p ++ k.
Proof. intros L. destruct p as [|a [|b [|c [|x [|y K]]]]]; cbn in L; try lia. reflexivity. Qed.
Lemma config_valid s c c' : config_in_units s c c' -> valid_config c -> valid_config c'.
Proof. intros (E1 & E2 & E3 & E4 & E5). unfold valid_config. rewrite E1, E2, E3, E4, E5, !units_len. tauto. Qed.
Lemma allowed_units s c c' n p : 0 < s -> valid_config c -> config_in_units s c c' -> (allowed c n p <-> allowed c' n (in_units s p)).
Proof.
  intros H (V1 & V2 & V3 & V4 & _) (E1 & E2 & E3 & E4 & _). unfold allowed. rewrite E1, E2, E3, E4, units_len.
  assert (X : length p = (5 + coeffs n)%nat -> forall i, ((In (Z.of_nat i) (cf_excluded c) -> nth i p 0 = nth i (cf_fixed c) 0) /\ (~ In (Z.of_nat i) (cf_excluded c) -> nth i (cf_bound_min c) (-5) <= nth i p 0 <= nth i (cf_bound_max c) 5)) <->
    ((In (Z.of_nat i) (cf_excluded c) -> nth i (in_units s p) 0 = nth i (in_units s (cf_fixed c)) 0) /\ (~ In (Z.of_nat i) (cf_excluded c) -> nth i (in_units s (cf_bound_min c)) (-5) <= nth i (in_units s p) 0 <= nth i (in_units s (cf_bound_max c)) 5))).
  { intros L i. rewrite !units_nth by lia. destruct (_ || _)%bool; [|reflexivity].
    assert (A : forall x y, s * x = s * y <-> x = y) by (intros x y; split; [intros Q; apply (Rmult_eq_reg_l s); lra|intros ->; reflexivity]).
    assert (B : forall x y, s * x <= s * y <-> x <= y) by (intros x y; split; intros Q; nra). rewrite A, !B. reflexivity. }
  split; intros [L G]; (split; [exact L|]); intros i Hi; apply (X L i), G, Hi.
Qed.
Lemma explained_units s a a' p r : scale_ok s a -> remeasured s a a' -> (5 <= length p)%nat -> explained a' (in_units s p) r <-> explained a p r.
Proof.
  intros (Hs & Hp & Hw & Hb) (E1 & E2 & E3 & E4 & E5 & E6 & E7 & E8 & E9 & E10) L. unfold explained. rewrite E2, E4, E5, E6, E7, E8, E9, E10.
  rewrite (residual_scaled s _ _ _ Hs Hp E1 E3 p) by assumption. reflexivity.
Qed.
Section Fit.
Variables (u : R) (orc : oracle) (a a' : fit_args) (s s' : fs) (c c' : config) (m : nat) (e : R).
Hypothesis (W : file_tree s) (Hr : run (fit_zpoly orc a') s = (Ok tt, s')) (Hf : free_number a' s) (Hc : configured a' s c') (Hv : valid_config c).
Hypothesis (Hm : (1 <= m)%nat) (Hb : best_from orc a' c' m e) (HU : scale_ok u a) (HA : remeasured u a a') (HC : config_in_units u c c').
Lemma fit_units p r0 : allowed c m p -> explained a p r0 ->
  exists j, (j <= 100)%nat /\ s (numbered (fit_dir a') (fa_name a') j) = None /\
  forall n, (m <= n <= fa_order_max a')%nat -> exists rows r,
    fitpar_rows s' (numbered (fit_dir a') (fa_name a') j) n rows /\
    csv_file s' (numbered (fit_dir a') (fa_name a') j) ("res_n" ^^ dec n ^^ ".csv") ("Residual " ^^ fa_name a') (A2 (map (map Fin) r)) /\
    allowed c n (in_units (/ u) (map parfit rows)) /\ explained a (in_units (/ u) (map parfit rows)) (concat r) /\ sum_sq (concat r) <= sum_sq r0 + e /\
    (forall d, determined a c n (p ++ repeat 0 (coeffs n - coeffs m)) (sum_sq r0 + e) d -> near d (in_units (/ u) (map parfit rows)) (p ++ repeat 0 (coeffs n - coeffs m))).
Proof.
  intros HP HX. pose proof (proj1 HU) as Hu. pose proof (proj1 HP) as Lp.
  destruct (best_bounds orc a' s s' c' m e W Hr Hf Hc (config_valid u c c' HC Hv) Hm Hb (in_units u p) r0) as (j & Hj & Hj0 & F).
  { apply (allowed_units u c c' m p Hu Hv HC). exact HP. } { apply (explained_units u a a' p r0 HU HA); [lia|exact HX]. }
  exists j. split; [exact Hj|]. split; [exact Hj0|]. intros n Hn. destruct (F n Hn) as (rows & r & F1 & F2 & F3 & F4 & F5). exists rows, r. split; [exact F1|]. split; [exact F2|].
  pose proof (proj1 F3) as Lr. assert (A : allowed c n (in_units (/ u) (map parfit rows))) by (apply (allowed_units u c c' n _ Hu Hv HC); rewrite units_forth by exact Hu; exact F3).
  assert (X : explained a (in_units (/ u) (map parfit rows)) (concat r)). { apply (explained_units u a a'); [exact HU|exact HA|rewrite units_len, Lr; lia|]. rewrite units_forth by exact Hu. exact F4. }
  split; [exact A|]. split; [exact X|]. split; [exact F5|]. intros d D. exact (D _ _ A X F5).
Qed.
End Fit.

(** The tilted telescope in kilometres. *)
Definition km_tel : telgeo := {| block_dist := block_manual (50 / 1000) (3 / 1000) (1 / 1000) (20 / 1000); opd_func := opd_manual (30 / 1000) (300 / 1000); tel_pr := 50 / 1000 |}.
Definition km_args : fit_args := {|
  fa_name := "kilometres"; fa_pthto := ["w"]; fa_object := "test001"; fa_date := "now"; fa_freq := 32; fa_wavel := 1 / 100000; fa_d_z := [- (2 / 1000); 0; 3 / 1000]; fa_meanel := 0;
  fa_beam := fa_beam (tilt_args (1 / 2)); fa_u := fa_u (tilt_args (1 / 2)); fa_v := fa_v (tilt_args (1 / 2)); fa_order_max := 1;
  fa_illum := illum_parabolic; fa_illum_name := "parabolic"; fa_tel := km_tel; fa_opd_name := "manual"; fa_tel_name := "manual";
  fa_resolution := 2; fa_box_factor := 1 / 10; fa_fit_previous := true; fa_config_file := Some ["w"; "notes.csv"]; fa_make_plots := true; fa_work_dir := None |}%string.
Definition km_config : config := {|
  cf_bound_max := [10; -1; 2; 1 / 1000; 1 / 1000; 5; 5; 1]; cf_bound_min := [0; -25; 1; - (1 / 1000); - (1 / 1000); -5; -5; 0];
  cf_excluded := [0; 1; 2; 3; 4; 5; 6]%Z; cf_fixed := [1; - (29 / 2); 7 / 5; 0; 0; 0; 0; 0]; cf_init := [1; -10; 3 / 2; 0; 0; 0; 0; 1 / 10] |}.
Lemma km_valid : valid_config km_config.
Proof. repeat (split; [reflexivity|]). exists [0; 1; 2; 3; 4; 5; 6]%nat. split; [reflexivity|]. split; [repeat constructor; lia|]. cbn. intros e He. lia. Qed.
Lemma km_tel_magnified : magnified 1000 km_tel demo_tel.
Proof.
  pose proof (magnified_manual 1000 (50 / 1000) (3 / 1000) (1 / 1000) (20 / 1000) (30 / 1000) (300 / 1000) ltac:(lra)) as M.
  replace (1000 * (50 / 1000)) with 50 in M by lra. replace (1000 * (3 / 1000)) with 3 in M by lra. replace (1000 * (1 / 1000)) with 1 in M by lra. replace (1000 * (20 / 1000)) with 20 in M by lra.
  replace (1000 * (30 / 1000)) with 30 in M by lra. replace (1000 * (300 / 1000)) with 300 in M by lra. exact M.
Qed.
Lemma km_remeasured : remeasured 1000 km_args (tilt_args (1 / 2)).
Proof.
  unfold remeasured. split; [exact km_tel_magnified|]. split; [reflexivity|]. split; [apply magnifies_parabolic; lra|]. split; [cbn; lra|]. split; [cbn [fa_d_z tilt_args km_args map]; repeat (f_equal; try lra)|]. repeat split.
Qed.
Lemma km_config_units : config_in_units 1000 km_config tilt_config.
Proof. unfold config_in_units. cbn [cf_excluded cf_fixed cf_bound_min cf_bound_max cf_init km_config tilt_config in_units]. split; [reflexivity|]. repeat split; repeat (f_equal; try lra). Qed.
Lemma km_ok : scale_ok 1000 km_args.
Proof. unfold scale_ok. cbn. lra. Qed.
Lemma km_determined d t : 0 < d < 1 / 10 -> 1 / 2 < t <= 3 / 5 -> tilt_q t - tilt_q (1 / 2) < tilt_q (1 / 2 + d) - tilt_q (1 / 2) -> tilt_q t - tilt_q (1 / 2) < tilt_q (1 / 2) - tilt_q (1 / 2 - d) ->
  determined km_args km_config 1 [1; - (29 / 2); 7 / 5; 0; 0; 0; 0; 1 / 2] (3 * (tilt_q (1 / 2) - tilt_q t) ^ 2) d.
Proof.
  intros Hd Ht Q1 Q2 q r A E S. pose proof (proj1 (allowed_units 1000 km_config tilt_config 1 q ltac:(lra) km_valid km_config_units) A) as A'. pose proof (proj2 (explained_units 1000 km_args _ q r km_ok km_remeasured ltac:(rewrite (proj1 A); lia)) E) as E'.
  pose proof (tilt_determined d t Hd Ht Q1 Q2 _ r A' E' S) as N. pose proof (proj1 A) as L.
  assert (Z : in_units 1000 q = q).
  { destruct A as [_ A]. pose proof (proj1 (A 3%nat ltac:(cbn; lia)) ltac:(cbn; lia)) as X3. pose proof (proj1 (A 4%nat ltac:(cbn; lia)) ltac:(cbn; lia)) as X4.
    destruct q as [|a [|b [|c [|x [|y K]]]]]; try reflexivity. cbn in X3, X4 |- *. subst x y. repeat (f_equal; try lra). }
  rewrite Z in N. exact N.
Qed.
