(** A concrete case for C96: a tilted telescope on two samples per axis, and a fit of
    the tilt alone. *)
From Coq Require Import String Ascii List ZArith Lia Lra Sorted.
From Verif Require Import PyBase PyLib Num MZernike SZernike MMath SMath MAperture MTel STel PTel MRad MCore SCore MFs MOut MAux MSim SOut SFit SBest SAux SSim SRecover PNorm PWave PAper PIllum PRad PResid PPhase PParams PFs PSim PSim2 PSim3 PFit PFit5 PFit6 PFit7 PFit9 PDemo PEnd PEndDemo PBest PBest2 PRecover MCoMat SMat Sums SCov PCov PCov2.
From Coquelicot Require Import Complex Derive AutoDerive ElemFct Rcomplements.
Import ListNotations.
Open Scope R_scope.
Open Scope string_scope.
Open Scope list_scope.

Definition tilt_sim (t : R) : sim_args := {|
  si_I := [1; - (29 / 2); 7 / 5; 0; 0]; si_K := [0; 0; t]; si_wavel := 1 / 100; si_d_z := [-2; 0; 3]; si_illum := illum_parabolic; si_tel := demo_tel;
  si_noise := 0; si_resolution := 2; si_box_factor := 1 / 10; si_work_dir := ["w"] |}.

Lemma series_one t rho th : rho <> 0 -> zernike_series 1 (coeff_of [0; 0; t]) rho th = t * (rho * cos th).
Proof.
  intros Hr. unfold zernike_series. cbn [sum_upto]. cbv zeta.
  change (coeff_of [0; 0; t] 0 (2 * Z.of_nat 0 - Z.of_nat 0)%Z) with 0. change (coeff_of [0; 0; t] 1 (2 * Z.of_nat 0 - Z.of_nat 1)%Z) with 0.
  change (coeff_of [0; 0; t] 1 (2 * Z.of_nat 1 - Z.of_nat 1)%Z) with t. change (2 * Z.of_nat 1 - Z.of_nat 1)%Z with 1%Z.
  assert (R1 : radial 1 1 rho = rho).
  { unfold radial. destruct (Req_EM_T rho 0); [contradiction|]. unfold rodrigues. cbn [Nat.sub Nat.add Nat.div Nat.divmod fst fact Derive.Derive_n]. cbn [INR pow]. field. exact Hr. }
  unfold circle at 3. change (Z.to_nat (Z.abs 1)) with 1%nat. cbn [Z.ltb Z.compare Z.abs]. rewrite R1, Rmult_1_l. ring.
Qed.
Lemma tilt_aperture t z : exists E c0, aperture illum_parabolic demo_tel [1; - (29 / 2); 7 / 5; 0; 0] [0; 0; t] z (1 / 100) = Ok E /\
  forall x y, x ^ 2 = 5 ^ 2 -> y ^ 2 = 5 ^ 2 -> E x y = Cmult (RtoC spot_A) (cis (c0 + t * PI / 5 * (x / 5))).
Proof.
  destruct (proj1 (par_arity [1; - (29 / 2); 7 / 5; 0; 0] 50) eq_refl) as [Ea EI].
  destruct (aperture_ok illum_parabolic demo_tel [1; - (29 / 2); 7 / 5; 0; 0] [0; 0; t] z (1 / 100) 1 Ea eq_refl EI) as (E & HE & HV).
  exists E, (2 * PI * (z * opd_factor 30 300 50 / (1 / 100))). split; [exact HE|].
  intros x y X Y. rewrite HV. f_equal.
  - f_equal. replace (block_dist demo_tel x y) with 1.
    + rewrite Rmult_1_l. rewrite (par_inside 1 (- (29 / 2)) (7 / 5) 0 0 50 Ea x y ltac:(lra) EI); rewrite !Rminus_0_r, X, Y; [unfold spot_A; f_equal; lra|lra].
    + symmetry. cbn [block_dist demo_tel]. apply block_manual_iff. unfold annulus, legs. rewrite X, Y.
      assert (Hf : forall t, t ^ 2 = 5 ^ 2 -> ~ Rabs t < 1) by (intros s T A; apply Rabs_lt_iff in A; nra).
      split; [lra|]. intros [[_ A]|[_ A]]; [exact (Hf y Y A)|exact (Hf x X A)].
  - change (tel_pr demo_tel) with 50. pose proof (PPolar.cart2pol_cos x y) as C. replace (x ^ 2 + y ^ 2) with 50 in * by (rewrite X, Y; ring).
    assert (R0 : sqrt 50 / 50 <> 0) by (pose proof (sqrt_lt_R0 50 ltac:(lra)); lra).
    rewrite (series_one t _ _ R0). change (opd_func demo_tel x y z) with (opd_manual 30 300 x y z). rewrite opd_radial by lra. replace (x ^ 2 + y ^ 2) with 50 by (rewrite X, Y; ring).
    f_equal. replace (sqrt 50 / 50 * cos (arctan2 y x)) with (x / 50) by (rewrite <- C at 1; field). field.
Qed.
Lemma tilt_power E b A c0 f : (forall x y, x ^ 2 = b ^ 2 -> y ^ 2 = b ^ 2 -> E x y = Cmult (RtoC A) (cis (c0 + f * (x / b)))) -> 0 < b ->
  power_pattern (fftshift2 (fft2 (sampled E b 2))) = [[0; 0]; [16 * A ^ 2 * sin f ^ 2; 16 * A ^ 2 * cos f ^ 2]].
Proof.
  intros H Hb.
  assert (S : sampled E b 2 = let p := Cmult (RtoC A) (cis (c0 + f)) in let m := Cmult (RtoC A) (cis (c0 - f)) in [[m; p]; [m; p]]).
  { unfold sampled, linspace, meshgrid, map2d. cbn [Nat.sub Nat.eqb seq map INR]. repeat rewrite H by (field; lra).
    cbv zeta.
    repeat match goal with |- context [f * (?z / b)] => first [replace (c0 + f * (z / b)) with (c0 + f) by (field; lra)|replace (c0 + f * (z / b)) with (c0 - f) by (field; lra)] end. reflexivity. }
  rewrite S. cbv zeta. set (p := Cmult (RtoC A) (cis (c0 + f))). set (m := Cmult (RtoC A) (cis (c0 - f))).
  assert (F : fft2 [[m; p]; [m; p]] = [[Cplus (Cplus p m) (Cplus m p); Cminus (Cplus m m) (Cplus p p)]; [RtoC 0; RtoC 0]]).
  { unfold fft2, at2. cbn [length ncols map seq Csum nth INR].
    assert (Z0 : forall x, x = 0 -> cis x = RtoC 1) by (intros x ->; apply cis_0).
    assert (Z1 : forall x, x = - PI -> cis x = Copp (RtoC 1)) by (intros x ->; unfold cis, Copp, RtoC; cbn [fst snd]; rewrite cos_neg, sin_neg, cos_PI, sin_PI, Ropp_0; reflexivity).
    assert (Z2 : forall x, x = - (2 * PI) -> cis x = RtoC 1) by (intros x ->; unfold cis; rewrite cos_neg, sin_neg, cos_2PI, sin_2PI, Ropp_0; reflexivity).
    repeat match goal with |- context [cis ?e] => first [rewrite (Z0 e) by field|rewrite (Z1 e) by field|rewrite (Z2 e) by field] end.
    apply quad; ring. }
  rewrite F. unfold fftshift2, fftshift, power_pattern, map2d. cbn [length Nat.sub Nat.div Nat.divmod fst skipn firstn map app].
  assert (Q : forall z, Cmod z ^ 2 = fst z ^ 2 + snd z ^ 2) by (intros z; unfold Cmod; rewrite pow2_sqrt by nra; ring).
  rewrite !Q. unfold p, m, cis, Cminus, Cplus, Copp, Cmult, RtoC. cbn [fst snd]. rewrite cos_plus, sin_plus, cos_minus, sin_minus.
  pose proof (sin2_cos2 c0) as N. unfold Rsqr in N. apply quad; try ring.
  - transitivity (16 * A ^ 2 * sin f ^ 2 * (sin c0 * sin c0 + cos c0 * cos c0)); [ring|rewrite N; ring].
  - transitivity (16 * A ^ 2 * cos f ^ 2 * (sin c0 * sin c0 + cos c0 * cos c0)); [ring|rewrite N; ring].
Qed.

Definition tilt_axis : list R := [- (1 / 2000); 0].
Definition tilt_map (t : R) : list R := [0; 0; 16 * spot_A ^ 2 * sin (t * PI / 5) ^ 2; 16 * spot_A ^ 2 * cos (t * PI / 5) ^ 2].
Definition tilt_x : list R := [- (1 / 2000); 0; - (1 / 2000); 0].
Definition tilt_y : list R := [- (1 / 2000); - (1 / 2000); 0; 0].
Lemma tilt_beam t z : exists F, beam_of (tilt_sim t) z = Ok (tilt_axis, tilt_axis, F) /\ block 2 (fun r c => Cmod (at2 F (0 + r) (0 + c)) ^ 2) = tilt_map t.
Proof.
  destruct (tilt_aperture t z) as (E & c0 & HE & HV). exists (fftshift2 (fft2 (sampled E 5 2))).
  assert (AX : map (fun s => s * (1 / 100)) (fftshift (fftfreq 2 (gx 5 2 1 - gx 5 2 0))) = tilt_axis).
  { unfold tilt_axis, fftshift, fftfreq, gx. cbn [Nat.sub Nat.div Nat.divmod fst Nat.add seq map app length skipn firstn INR Z.of_nat Z.sub Z.add Z.opp Z.pos_sub Pos.of_succ_nat]. f_equal; [field|f_equal; field]. }
  assert (HB : beam_of (tilt_sim t) z = Ok (tilt_axis, tilt_axis, fftshift2 (fft2 (sampled E 5 2)))).
  { unfold beam_of. cbn [si_illum si_tel si_I si_K si_wavel si_resolution si_box_factor tilt_sim]. rewrite rad_unfold by lia. cbv zeta. rewrite HE. cbn [bind]. change (tel_pr demo_tel) with 50. replace (50 * (1 / 10)) with 5 by field. rewrite AX. reflexivity. }
  split; [exact HB|]. pose proof (tilt_power E 5 spot_A c0 (t * PI / 5) HV ltac:(lra)) as P.
  set (F := fftshift2 (fft2 (sampled E 5 2))) in *.
  assert (LF : length F = 2%nat /\ forall row, In row F -> length row = 2%nat).
  { unfold F, fftshift2, fftshift, fft2, sampled, meshgrid, linspace, map2d. cbn. split; [reflexivity|]. intros row [<-|[<-|[]]]; reflexivity. }
  assert (PA : forall r c, (r < 2)%nat -> (c < 2)%nat -> Cmod (at2 F r c) ^ 2 = nth c (nth r (power_pattern F) []) 0) by (intros r c Hr Hc; symmetry; apply (power_at F r c 2); [apply LF|apply LF|exact Hr|exact Hc]).
  unfold block, rows. cbn [seq map concat app Nat.add]. rewrite !PA by lia. rewrite P. reflexivity.
Qed.
Lemma tilt_physical t : physical (tilt_sim t).
Proof. unfold physical. cbn. repeat split; lra. Qed.
Lemma tilt_runs t : exists f s' ob, run (simulate_data_pyoof quiet_outside (tilt_sim t)) sim_fs = (Ok f, s') /\ sim_fs (sim_file (tilt_sim t) 1) = None /\ s' (sim_file (tilt_sim t) 1) <> None /\
  fst (run (extract_data_pyoof ["w"] "data_generated/test001.fits") s') = Ok ob /\ ob_wavel ob = 1 / 100 /\ ob_d_z ob = [-2; 0; 3] /\
  ob_beam ob = [map Fin (tilt_map t); map Fin (tilt_map t); map Fin (tilt_map t)] /\ ob_u ob = map (map Fin) [tilt_x; tilt_x; tilt_x] /\ ob_v ob = map (map Fin) [tilt_y; tilt_y; tilt_y].
Proof.
  destruct (wavefront_series [0; 0; t] 1 eq_refl) as (W & HW & _). destruct (proj1 (par_arity [1; - (29 / 2); 7 / 5; 0; 0] 50) eq_refl) as [Ea EI].
  assert (N1 : sim_fs (sim_file (tilt_sim t) 1) = None).
  { unfold sim_file, sim_fs, listed. destruct (in_dec _ _ _) as [I|_]; [exfalso; cbn in I; intuition discriminate|]. destruct (path_eq_dec _ _); [discriminate|reflexivity]. }
  assert (N0 : sim_fs (sim_file (tilt_sim t) 0) <> None).
  { unfold sim_file, sim_fs, listed. destruct (in_dec _ _ _); [discriminate|]. destruct (path_eq_dec _ _) as [|X]; [discriminate|]. exfalso. apply X. reflexivity. }
  destruct (sim_total quiet_outside (tilt_sim t) sim_fs (-2) 0 3 [] W Ea (tilt_physical t) ltac:(cbn; lia) HW EI eq_refl) as (f & s' & R).
  - unfold offsets_ok. lra.
  - cbn [si_resolution si_box_factor tilt_sim]. intros i I. destruct i as [|[|i]]; [| |lia]; cbn [INR Nat.div Nat.divmod fst Nat.sub]; unfold Rabs; destruct (Rcase_abs _); lra.
  - exact sim_tree.
  - split; [reflexivity|right; reflexivity].
  - exists 1%nat. split; [lia|exact N1].
  - assert (N2 : s' (sim_file (tilt_sim t) 1) <> None).
    { destruct (sim_success _ _ _ _ _ sim_tree R) as (T & j & _ & ET & _ & J & N & Q & Wr & _).
      destruct j as [|[|j]]; [congruence|rewrite Wr; discriminate|exfalso; exact (Q 1%nat ltac:(lia) N1)]. }
    destruct (round_trip quiet_outside (tilt_sim t) sim_fs f s' ["w"] "data_generated/test001.fits" "data_generated/" "test001" 1 (tilt_physical t) sim_tree R N1 N2) as (z0 & z1 & z2 & rest & u & F0 & F1 & F2 & i0 & k & ob & Ez & HB & Win & Eob & _ & _ & _ & Ew & _ & _ & Edz & Hc).
    + split; [reflexivity|]. split; [right; exists "data_generated"; reflexivity|]. split; [cbn; intuition discriminate|]. exists "t"%char. split; [left; reflexivity|discriminate].
    + reflexivity.
    + exists f, s', ob. split; [exact R|]. split; [exact N1|]. split; [exact N2|]. split; [exact Eob|]. split; [exact Ew|]. cbn [si_d_z tilt_sim] in Ez. injection Ez as <- <- <- <-. split; [exact Edz|].
      destruct HB as (v0 & v1 & v2 & B0 & B1 & B2). destruct (tilt_beam t (-2)) as (G0 & C0 & P0). destruct (tilt_beam t 0) as (G1 & C1 & P1). destruct (tilt_beam t 3) as (G2 & C2 & P2).
      rewrite B0 in C0. injection C0 as -> -> ->. rewrite B1 in C1. injection C1 as -> ->. rewrite B2 in C2. injection C2 as -> ->.
      assert (I0 : i0 = 0%nat /\ k = 2%nat).
      { destruct Win as [L WI]. cbn [length tilt_axis] in L, WI. rewrite limit_eq in WI. unfold half_width in WI. cbn [si_wavel tilt_sim si_tel tel_pr demo_tel] in WI.
        assert (X0 : (i0 <= 0 < i0 + k)%nat) by (apply WI; [lia|]; cbn [nth tilt_axis]; unfold Rabs; destruct (Rcase_abs _); lra).
        assert (X1 : (i0 <= 1 < i0 + k)%nat) by (apply WI; [lia|]; cbn [nth tilt_axis]; unfold Rabs; destruct (Rcase_abs _); lra). lia. }
      destruct I0 as [-> ->]. cbv zeta in Hc. unfold sim_columns in Hc. cbn [fst snd si_noise tilt_sim] in Hc. destruct (Req_EM_T 0 0) as [_|G]; [|congruence]. destruct Hc as (Hbeam & Hu & Hv).
      assert (EP : forall F, block 2 (fun r c => Cmod (at2 F (0 + r) (0 + c)) ^ 2 + 0) = block 2 (fun r c => Cmod (at2 F (0 + r) (0 + c)) ^ 2)) by (intros F; apply block_ext; intros; ring).
      rewrite !EP, P0, P1, P2 in Hbeam. split; [exact Hbeam|]. split; [exact Hu|exact Hv].
Qed.

(** ** The fit of the tilt *)
Definition tilt_config : config := {|
  cf_bound_max := [10; -1; 2; 1; 1; 5; 5; 1]; cf_bound_min := [0; -25; 1; -1; -1; -5; -5; 0];
  cf_excluded := [0; 1; 2; 3; 4; 5; 6]%Z; cf_fixed := [1; - (29 / 2); 7 / 5; 0; 0; 0; 0; 0]; cf_init := [1; -10; 3 / 2; 0; 0; 0; 0; 1 / 10] |}.
Definition tilt_args (t : R) : fit_args := {|
  fa_name := "tilted"; fa_pthto := ["w"]; fa_object := "test001"; fa_date := "now"; fa_freq := 32; fa_wavel := 1 / 100; fa_d_z := [-2; 0; 3]; fa_meanel := 0;
  fa_beam := [map Fin (tilt_map t); map Fin (tilt_map t); map Fin (tilt_map t)]; fa_u := [tilt_x; tilt_x; tilt_x]; fa_v := [tilt_y; tilt_y; tilt_y]; fa_order_max := 1;
  fa_illum := illum_parabolic; fa_illum_name := "parabolic"; fa_tel := demo_tel; fa_opd_name := "manual"; fa_tel_name := "manual";
  fa_resolution := 2; fa_box_factor := 1 / 10; fa_fit_previous := true; fa_config_file := Some ["w"; "notes.csv"]; fa_make_plots := true; fa_work_dir := None |}.
Definition tilt_fs : fs := upd demo_fs ["w"; "notes.csv"] (File (Config tilt_config)).

Lemma tilt_valid : valid_config tilt_config.
Proof.
  repeat (split; [reflexivity|]). exists [0; 1; 2; 3; 4; 5; 6]%nat. split; [reflexivity|]. split; [repeat constructor; lia|]. cbn. intros e He. lia.
Qed.
Lemma tilt_row t t' i : (i < 3)%nat -> model_row illum_parabolic demo_tel [1; - (29 / 2); 7 / 5; 0; 0; 0; 0; t] (fa_u (tilt_args t')) (fa_v (tilt_args t')) (fa_d_z (tilt_args t')) (1 / 100) 2 (1 / 10) i = Ok (tilt_map t).
Proof.
  intros Hi. assert (HZ : exists z, nth_error [-2; 0; 3] i = Some z) by (destruct i as [|[|[|i]]]; [| | |lia]; eexists; reflexivity). destruct HZ as [z HZ].
  destruct (tilt_beam t z) as (F & HB & P). rewrite <- P.
  apply (model_at_window (tilt_sim t) z tilt_axis tilt_axis F 0 2 (fa_u (tilt_args t')) (fa_v (tilt_args t')) (fa_d_z (tilt_args t')) i (tilt_physical t) eq_refl HB); [cbn; lia|exact HZ| |]; destruct i as [|[|[|i]]]; try lia; reflexivity.
Qed.
Lemma tilt_norm t : 0 <= t <= 1 -> norm_all (map Fin (tilt_map t)) = Ok [0; 0; sin (t * PI / 5) ^ 2 / cos (t * PI / 5) ^ 2; 1] /\ 0 <= sin (t * PI / 5) /\ 0 < cos (t * PI / 5).
Proof.
  intros H. pose proof PI_RGT_0 as P. pose proof spot_A_pos as A. assert (T0 : 0 <= t * PI / 5) by (apply Rmult_le_pos; [apply Rmult_le_pos; lra|lra]). assert (T1 : t * PI / 5 <= PI / 5) by nra.
  assert (S0 : 0 <= sin (t * PI / 5)) by (apply sin_ge_0; lra). assert (SC : sin (t * PI / 5) < cos (t * PI / 5)).
  { apply Rlt_trans with (sin (PI / 4)); [apply sin_increasing_1; lra|]. rewrite sin_cos_PI4. apply cos_decreasing_1; lra. }
  split; [|split; [exact S0|lra]]. set (S := sin (t * PI / 5)) in *. set (C := cos (t * PI / 5)) in *. unfold tilt_map. fold S C.
  assert (0 <= 16 * spot_A ^ 2 * S ^ 2) by (assert (0 <= spot_A ^ 2) by nra; assert (0 <= S ^ 2) by nra; nra). assert (16 * spot_A ^ 2 * S ^ 2 < 16 * spot_A ^ 2 * C ^ 2) by (apply Rmult_lt_compat_l; nra).
  set (Q := 16 * spot_A ^ 2 * S ^ 2) in *. set (R := 16 * spot_A ^ 2 * C ^ 2) in *.
  unfold norm_all, np_min, np_max. cbn [map fold_left bind]. rewrite !nmin_Fin, !nmax_Fin. rewrite (Rmin_left 0 0), (Rmin_left 0 Q), (Rmin_left 0 R), (Rmax_left 0 0), (Rmax_right 0 Q), (Rmax_right Q R) by lra.
  cbn [map]. unfold norm_by, nsub, nneg, nadd, ndiv. destruct (Req_EM_T (R + - 0) 0); [lra|]. cbn [nan_to_num]. f_equal. f_equal; [field; lra|]. f_equal; [field; lra|]. f_equal; [|f_equal; field; lra].
  unfold Q, R. field. split; nra.
Qed.
Lemma tilt_explained t t' : 0 <= t <= 1 -> 0 <= t' <= 1 -> let q x := sin (x * PI / 5) ^ 2 / cos (x * PI / 5) ^ 2 in
  explained (tilt_args t') [1; - (29 / 2); 7 / 5; 0; 0; 0; 0; t] (concat (repeat [0; 0; q t' - q t; 0] 3)).
Proof.
  intros H H' q. unfold explained, residual_true. cbv zeta. cbn [fa_illum fa_tel fa_wavel fa_resolution fa_box_factor fa_beam tilt_args map].
  rewrite (fill3 _ _ _ _ _ _ _ (tilt_row t t' 0 ltac:(lia)) (tilt_row t t' 1 ltac:(lia)) (tilt_row t t' 2 ltac:(lia))) by reflexivity. cbn [bind].
  destruct (tilt_norm t H) as (N & _). destruct (tilt_norm t' H') as (N' & _).
  rewrite !norm_rows_eq. cbn [mapM map repeat].
  repeat (rewrite N' || rewrite N). cbn [bind map2 concat app]. fold (q t) (q t'). repeat f_equal; ring.
Qed.
Lemma tilt_injective t t' : 0 <= t <= 1 -> 0 <= t' <= 1 -> sin (t * PI / 5) ^ 2 / cos (t * PI / 5) ^ 2 = sin (t' * PI / 5) ^ 2 / cos (t' * PI / 5) ^ 2 -> t = t'.
Proof.
  intros H H' E. destruct (tilt_norm t H) as (_ & S & C). destruct (tilt_norm t' H') as (_ & S' & C'). pose proof PI_RGT_0 as P.
  assert (X : (sin (t * PI / 5) * cos (t' * PI / 5)) ^ 2 = (sin (t' * PI / 5) * cos (t * PI / 5)) ^ 2).
  { apply (f_equal (fun z => z * (cos (t * PI / 5) ^ 2 * cos (t' * PI / 5) ^ 2))) in E. transitivity (sin (t * PI / 5) ^ 2 / cos (t * PI / 5) ^ 2 * (cos (t * PI / 5) ^ 2 * cos (t' * PI / 5) ^ 2)); [field; lra|]. rewrite E. field. lra. }
  assert (Y : sin (t * PI / 5) * cos (t' * PI / 5) = sin (t' * PI / 5) * cos (t * PI / 5)).
  { assert (0 <= sin (t * PI / 5) * cos (t' * PI / 5)) by (apply Rmult_le_pos; lra). assert (0 <= sin (t' * PI / 5) * cos (t * PI / 5)) by (apply Rmult_le_pos; lra). nra. }
  assert (Z : sin (t * PI / 5 - t' * PI / 5) = 0) by (rewrite sin_minus; lra).
  assert (B : - PI < t * PI / 5 - t' * PI / 5 < PI) by nra.
  destruct (Rtotal_order (t * PI / 5 - t' * PI / 5) 0) as [L|[L|L]]; [|nra|].
  - pose proof (sin_gt_0 (- (t * PI / 5 - t' * PI / 5)) ltac:(lra) ltac:(lra)) as G. rewrite sin_neg in G. lra.
  - pose proof (sin_gt_0 (t * PI / 5 - t' * PI / 5) L ltac:(lra)). lra.
Qed.
Lemma tilt_allowed q : allowed tilt_config 1 q <-> exists t, 0 <= t <= 1 /\ q = [1; - (29 / 2); 7 / 5; 0; 0; 0; 0; t].
Proof.
  split.
  - intros [L H]. change (5 + coeffs 1)%nat with 8%nat in *. destruct q as [|q0 [|q1 [|q2 [|q3 [|q4 [|q5 [|q6 [|q7 [|q8 q]]]]]]]]]; try discriminate L.
    exists q7. pose proof (fun i Hi => proj1 (H i Hi)) as X. destruct (proj2 (H 7%nat ltac:(lia)) ltac:(cbn; lia)) as [Y1 Y2]. cbn in Y1, Y2. split; [lra|].
    pose proof (X 0%nat ltac:(lia) ltac:(cbn; lia)) as X0. pose proof (X 1%nat ltac:(lia) ltac:(cbn; lia)) as X1. pose proof (X 2%nat ltac:(lia) ltac:(cbn; lia)) as X2. pose proof (X 3%nat ltac:(lia) ltac:(cbn; lia)) as X3.
    pose proof (X 4%nat ltac:(lia) ltac:(cbn; lia)) as X4. pose proof (X 5%nat ltac:(lia) ltac:(cbn; lia)) as X5. pose proof (X 6%nat ltac:(lia) ltac:(cbn; lia)) as X6. cbn in X0, X1, X2, X3, X4, X5, X6. subst. reflexivity.
  - intros (t & Ht & ->). split; [reflexivity|]. change (5 + coeffs 1)%nat with 8%nat. intros i Hi. split.
    + cbn. intros X. destruct i as [|[|[|[|[|[|[|i]]]]]]]; try reflexivity. lia.
    + cbn [cf_excluded tilt_config In]. intros X. destruct i as [|[|[|[|[|[|[|[|i]]]]]]]]; [exfalso; apply X; cbn; lia ..| |lia]. cbn. lra.
Qed.
Definition tilt_q (t : R) : R := sin (t * PI / 5) ^ 2 / cos (t * PI / 5) ^ 2.
Lemma tilt_q_tan t : 0 <= t <= 1 -> tilt_q t = tan (t * PI / 5) ^ 2.
Proof. intros H. destruct (tilt_norm t H) as (_ & _ & C). unfold tilt_q, tan. field. lra. Qed.
Lemma tilt_q_increasing t t' : 0 <= t -> t < t' -> t' <= 1 -> tilt_q t < tilt_q t'.
Proof.
  intros H0 H H1. rewrite !tilt_q_tan by lra. pose proof PI_RGT_0 as P. assert (T : tan (t * PI / 5) < tan (t' * PI / 5)) by (apply tan_increasing; nra).
  assert (0 <= tan (t * PI / 5)). { destruct (tilt_norm t ltac:(lra)) as (_ & S & C). unfold tan. apply Rdiv_le_0_compat; lra. } nra.
Qed.
Lemma tilt_q_continuous t : 0 <= t <= 1 -> continuity_pt tilt_q t.
Proof.
  intros H. destruct (tilt_norm t H) as (_ & _ & C). apply derivable_continuous_pt, ex_derive_Reals_0. unfold tilt_q. auto_derive. nra.
Qed.
(** An answer close to the simulated tilt. *)
Lemma tilt_close d : 0 < d < 1 / 10 -> exists t, 1 / 2 < t <= 3 / 5 /\ tilt_q t - tilt_q (1 / 2) < tilt_q (1 / 2 + d) - tilt_q (1 / 2) /\ tilt_q t - tilt_q (1 / 2) < tilt_q (1 / 2) - tilt_q (1 / 2 - d).
Proof.
  intros Hd. pose proof (tilt_q_increasing (1 / 2 - d) (1 / 2) ltac:(lra) ltac:(lra) ltac:(lra)) as Q1. pose proof (tilt_q_increasing (1 / 2) (1 / 2 + d) ltac:(lra) ltac:(lra) ltac:(lra)) as Q2.
  destruct (tilt_q_continuous (1 / 2) ltac:(lra) (tilt_q (1 / 2) - tilt_q (1 / 2 - d))) as (al & Hal & H); [lra|].
  set (t := 1 / 2 + Rmin (al / 2) (d / 2)). assert (B : 0 < Rmin (al / 2) (d / 2) <= d / 2 /\ Rmin (al / 2) (d / 2) < al) by (unfold Rmin; destruct (Rle_dec _ _); lra).
  exists t. split; [unfold t; lra|]. pose proof (tilt_q_increasing t (1 / 2 + d) ltac:(unfold t; lra) ltac:(unfold t; lra) ltac:(lra)). split; [lra|].
  specialize (H t). cbn [dist R_met Base] in H. unfold R_dist in H. assert (X : Rabs (tilt_q t - tilt_q (1 / 2)) < tilt_q (1 / 2) - tilt_q (1 / 2 - d)).
  { apply H. split; [split; [exact I|unfold t; lra]|]. unfold t. replace (1 / 2 + Rmin (al / 2) (d / 2) - 1 / 2) with (Rmin (al / 2) (d / 2)) by ring. rewrite Rabs_right; lra. }
  pose proof (Rle_abs (tilt_q t - tilt_q (1 / 2))). lra.
Qed.
Lemma tilt_misfit t t' : 0 <= t <= 1 -> 0 <= t' <= 1 -> misfit (tilt_args t') tilt_config 1 [t] = Ok (concat (repeat [0; 0; tilt_q t' - tilt_q t; 0] 3)).
Proof. intros H H'. unfold misfit, residual; cbn [params_complete tilt_config]; exact (tilt_explained t t' H H'). Qed.
Lemma tilt_sum q : sum_sq (concat (repeat [0; 0; q; 0] 3)) = 3 * q ^ 2.
Proof. cbn [repeat concat app]. rewrite !sum_sq_cons. change (sum_sq []) with 0. ring. Qed.
Lemma tilt_feasible t : 0 <= t <= 1 -> feasible tilt_config 1 [t].
Proof. intros H. exists [0], [1]. split; [reflexivity|]. split; [reflexivity|]. split; [reflexivity|]. split; [reflexivity|]. cbn [length]. intros [|i] Hi; [cbn; lra|lia]. Qed.
Lemma tilt_determined d t : 0 < d < 1 / 10 -> 1 / 2 < t <= 3 / 5 -> tilt_q t - tilt_q (1 / 2) < tilt_q (1 / 2 + d) - tilt_q (1 / 2) -> tilt_q t - tilt_q (1 / 2) < tilt_q (1 / 2) - tilt_q (1 / 2 - d) ->
  determined (tilt_args (1 / 2)) tilt_config 1 [1; - (29 / 2); 7 / 5; 0; 0; 0; 0; 1 / 2] (3 * (tilt_q (1 / 2) - tilt_q t) ^ 2) d.
Proof.
  intros Hd Ht Q1 Q2 q r A E S. apply tilt_allowed in A. destruct A as (u & Hu & ->). pose proof (tilt_explained u (1 / 2) Hu ltac:(lra)) as X. cbv zeta in X. unfold explained in *. rewrite E in X. apply Ok_inj in X. subst r.
  change (sin (1 / 2 * PI / 5) ^ 2 / cos (1 / 2 * PI / 5) ^ 2) with (tilt_q (1 / 2)) in S. change (sin (u * PI / 5) ^ 2 / cos (u * PI / 5) ^ 2) with (tilt_q u) in S. rewrite tilt_sum in S.
  pose proof (tilt_q_increasing (1 / 2) t ltac:(lra) ltac:(lra) ltac:(lra)) as Q.
  assert (D : Rabs (u - 1 / 2) <= d).
  { destruct (Rle_dec (Rabs (u - 1 / 2)) d) as [|N]; [assumption|exfalso]. apply Rnot_le_lt in N. unfold Rabs in N. destruct (Rcase_abs (u - 1 / 2)).
    - pose proof (tilt_q_increasing u (1 / 2 - d) ltac:(lra) ltac:(lra) ltac:(lra)). nra.
    - pose proof (tilt_q_increasing (1 / 2 + d) u ltac:(lra) ltac:(lra) ltac:(lra)). nra. }
  unfold near. repeat (apply Forall2_cons; [first [exact D|rewrite Rminus_diag_eq, Rabs_R0 by reflexivity; lra]|]). apply Forall2_nil.
Qed.
Definition tilt_oracle (t : R) : oracle := careful demo_oracle [t] (1 / 10).
(** Any observation with the misfit of the tilted telescope. *)
Definition like_tilt (a : fit_args) : Prop :=
  fa_order_max a = 1%nat /\ forall t, 0 <= t <= 1 -> misfit a tilt_config 1 [t] = Ok (concat (repeat [0; 0; tilt_q (1 / 2) - tilt_q t; 0] 3)).
Lemma tilt_like : like_tilt (tilt_args (1 / 2)).
Proof. split; [reflexivity|]. intros t H. apply tilt_misfit; lra. Qed.
Lemma like_regular a t : like_tilt a -> 1 / 2 < t <= 3 / 5 -> regular_answers (tilt_oracle t) a tilt_config.
Proof.
  intros [HO HM] Ht. split; [|reflexivity]. intros n x0 lo hi Hn L _ _. rewrite HO in Hn. assert (n = 1%nat) as -> by lia. change (length (cf_excluded tilt_config)) with 7%nat in L. change (5 + coeffs 1)%nat with 8%nat in L.
  cbn [or_lsq tilt_oracle careful]. replace (length x0) with 1%nat by lia. cbn [length Nat.eqb]. rewrite HM by lra. cbn [bind]. eexists. split; [reflexivity|]. cbn [lo_x lo_fun lo_jac].
  set (r := concat (repeat [0; 0; tilt_q (1 / 2) - tilt_q t; 0] 3)). assert (Lr : length r = 12%nat) by reflexivity. rewrite Lr. split; [reflexivity|]. split; [reflexivity|].
  split. { split; cbn [lo_x lo_fun lo_jac]; [apply (quotients_matrix _ [t] (1 / 10) r)|rewrite Lr; cbn; lia]. }
  split.
  - intros x H j Hj. cbn [length] in Hj. assert (j = 0%nat) as -> by lia. specialize (H 2%nat ltac:(lia)). cbn [length] in H. rewrite Rsum_Sr in H. cbn [Rsum] in H. rewrite quotients_at in H by (rewrite ?Lr; cbn; lia).
    unfold along in H. cbn [firstn skipn app nth] in H. rewrite HM in H by lra. cbn [component] in H. change (nth 2 (concat (repeat [0; 0; tilt_q (1 / 2) - tilt_q (t + 1 / 10); 0] 3)) 0) with (tilt_q (1 / 2) - tilt_q (t + 1 / 10)) in H.
    change (nth 2 r 0) with (tilt_q (1 / 2) - tilt_q t) in H. pose proof (tilt_q_increasing t (t + 1 / 10) ltac:(lra) ltac:(lra) ltac:(lra)) as Q. rewrite Rplus_0_l in H. apply Rmult_integral in H. destruct H as [H|H]; [lra|exact H].
  - exists (tilt_q (1 / 2) - tilt_q t). split; [right; right; left; reflexivity|]. pose proof (tilt_q_increasing (1 / 2) t ltac:(lra) ltac:(lra) ltac:(lra)). lra.
Qed.
Lemma tilt_regular t : 1 / 2 < t <= 3 / 5 -> regular_answers (tilt_oracle t) (tilt_args (1 / 2)) tilt_config.
Proof. exact (like_regular _ t tilt_like). Qed.
Lemma like_best a t : like_tilt a -> 1 / 2 < t <= 3 / 5 -> best_from (tilt_oracle t) a tilt_config 1 (3 * (tilt_q (1 / 2) - tilt_q t) ^ 2).
Proof.
  intros [HO HM] H n start out Hn L A. rewrite HO in Hn. assert (n = 1%nat) as -> by lia. clear Hn.
  apply careful_answer in A. destruct A as (r & M & ->). unfold optimal. cbn [lo_x lo_fun]. split; [apply tilt_feasible; lra|]. split; [exact M|]. rewrite HM in M by lra. apply Ok_inj in M. subst r. intros x r _ _. rewrite tilt_sum. pose proof (sum_sq_nonneg r). lra.
Qed.
Lemma tilt_best t : 1 / 2 < t <= 3 / 5 -> best_from (tilt_oracle t) (tilt_args (1 / 2)) tilt_config 1 (3 * (tilt_q (1 / 2) - tilt_q t) ^ 2).
Proof. exact (like_best _ t tilt_like). Qed.
Lemma tilt_tree : wf tilt_fs.
Proof. apply (wf_upd_file demo_fs ["w"; "notes.csv"] (Params [])); [exact demo_tree|reflexivity]. Qed.
Lemma tilt_free t : free_number (tilt_args t) tilt_fs.
Proof.
  exists 0%nat. split; [lia|]. unfold tilt_fs. rewrite upd_other; [apply demo_numbered|]. cbn. discriminate.
Qed.
Lemma tilt_usable t : usable (fit_dir (tilt_args t)) tilt_fs.
Proof. split; [reflexivity|right; reflexivity]. Qed.
Lemma tilt_maps t : three_maps (tilt_args t).
Proof. repeat split; try (cbn; lia); destruct i as [|[|[|i]]]; cbn; discriminate || lia. Qed.
Lemma tilt_fit t : 1 / 2 < t <= 3 / 5 -> exists s', run (fit_zpoly (tilt_oracle t) (tilt_args (1 / 2))) tilt_fs = (Ok tt, s').
Proof.
  intros H. apply (own_completes _ _ _ tilt_config); [exact tilt_tree|apply tilt_usable|apply tilt_free|reflexivity|exact tilt_valid|intros rs J k; reflexivity|apply tilt_regular, H|cbn; lra|apply tilt_maps].
Qed.
