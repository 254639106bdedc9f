(** Concrete fits for C94: two samples per axis, three observed points per map. *)
From Coq Require Import String List ZArith Lia Lra Sorted.
From Verif Require Import PyBase PyLib Num MZernike SZernike MMath SMath MAperture MTel STel PTel MRad MCore SCore MFs MOut SOut SFit SBest PWave PAper PIllum PRad PResid PPhase PParams PFs PFit PFit5 PFit7 PFit9 PDemo PBest.
From Coquelicot Require Import Complex.
Import ListNotations.
Open Scope R_scope.
Open Scope list_scope.

(** ** The pattern of four corners *)
Lemma series_two t rho th : rho <> 0 -> cos (2 * th) = 0 ->
  zernike_series 2 (coeff_of [0; 0; 0; t; t; t]) rho th = t * rho ^ 2 * sin (2 * th) + t * radial 2 0 rho.
Proof.
  intros Hr Hc. unfold zernike_series. cbn [sum_upto]. cbv zeta.
  change (coeff_of [0; 0; 0; t; t; t] 0 (2 * Z.of_nat 0 - Z.of_nat 0)%Z) with 0. change (coeff_of [0; 0; 0; t; t; t] 1 (2 * Z.of_nat 0 - Z.of_nat 1)%Z) with 0.
  change (coeff_of [0; 0; 0; t; t; t] 1 (2 * Z.of_nat 1 - Z.of_nat 1)%Z) with 0. change (coeff_of [0; 0; 0; t; t; t] 2 (2 * Z.of_nat 0 - Z.of_nat 2)%Z) with t.
  change (coeff_of [0; 0; 0; t; t; t] 2 (2 * Z.of_nat 1 - Z.of_nat 2)%Z) with t. change (coeff_of [0; 0; 0; t; t; t] 2 (2 * Z.of_nat 2 - Z.of_nat 2)%Z) with t.
  change (2 * Z.of_nat 0 - Z.of_nat 2)%Z with (-2)%Z. change (2 * Z.of_nat 1 - Z.of_nat 2)%Z with 0%Z. change (2 * Z.of_nat 2 - Z.of_nat 2)%Z with 2%Z.
  assert (R2 : radial 2 2 rho = rho ^ 2).
  { unfold radial. destruct (Req_EM_T rho 0); [contradiction|]. unfold rodrigues. cbn [Nat.sub Nat.add Nat.div Nat.divmod fst fact Derive.Derive_n]. cbn [INR pow]. field. exact Hr. }
  unfold circle at 4 5 6. change (Z.to_nat (Z.abs (-2))) with 2%nat. change (Z.to_nat (Z.abs 0)) with 0%nat. change (Z.to_nat (Z.abs 2)) with 2%nat. cbn [Z.ltb Z.compare Z.abs]. rewrite R2, Hc, (Rmult_0_l th), cos_0. ring.
Qed.
Lemma corner_angle x y b : 0 < b -> x ^ 2 = b -> y ^ 2 = b -> cos (2 * arctan2 y x) = 0 /\ sin (2 * arctan2 y x) = x * y / b.
Proof.
  intros Hb X Y. pose proof (PPolar.cart2pol_cos x y) as C. pose proof (PPolar.cart2pol_sin x y) as S. set (r := sqrt (x ^ 2 + y ^ 2)) in *.
  assert (R2 : r ^ 2 = 2 * b) by (unfold r; rewrite pow2_sqrt by nra; lra). rewrite cos_2a_sin, sin_2a. set (c := cos (arctan2 y x)) in *. set (d := sin (arctan2 y x)) in *.
  assert (D2 : 2 * b * (d * d) = b) by (transitivity ((r * d) ^ 2); [rewrite <- R2; ring|rewrite S; exact Y]). split; [nra|].
  apply Rmult_eq_reg_l with b; [|lra]. replace (b * (x * y / b)) with (x * y) by (field; lra). transitivity (r ^ 2 * (d * c)); [rewrite R2; ring|]. transitivity ((r * c) * (r * d)); [ring|rewrite C, S; reflexivity].
Qed.
Lemma quad {X} (a b c d a' b' c' d' : X) : a = a' -> b = b' -> c = c' -> d = d' -> [[a; b]; [c; d]] = [[a'; b']; [c'; d']].
Proof. congruence. Qed.
Lemma corner_power E b A c0 f : (forall x y, x ^ 2 = b ^ 2 -> y ^ 2 = b ^ 2 -> E x y = Cmult (RtoC A) (cis (c0 + f * (x * y / b ^ 2)))) -> 0 < b ->
  power_pattern (fftshift2 (fft2 (sampled E b 2))) = [[16 * A ^ 2 * sin f ^ 2; 0]; [0; 16 * A ^ 2 * cos f ^ 2]].
Proof.
  intros H Hb.
  assert (S : sampled E b 2 = let p := Cmult (RtoC A) (cis (c0 + f)) in let m := Cmult (RtoC A) (cis (c0 - f)) in [[p; m]; [m; p]]).
  { unfold sampled, linspace, meshgrid, map2d. cbn [Nat.sub Nat.eqb seq map INR]. repeat rewrite H by (field; lra).
    cbv zeta.
    repeat match goal with |- context [f * (?z / b ^ 2)] => first [replace (c0 + f * (z / b ^ 2)) with (c0 + f) by (field; lra)|replace (c0 + f * (z / b ^ 2)) with (c0 - f) by (field; lra)] end. reflexivity. }
  rewrite S. cbv zeta. set (p := Cmult (RtoC A) (cis (c0 + f))). set (m := Cmult (RtoC A) (cis (c0 - f))).
  assert (F : fft2 [[p; m]; [m; p]] = [[Cplus (Cplus p m) (Cplus m p); RtoC 0]; [RtoC 0; Cminus (Cplus p p) (Cplus m m)]]).
  { unfold fft2, at2. cbn [length ncols map seq Csum nth INR].
    assert (Z0 : forall x, x = 0 -> cis x = RtoC 1) by (intros x ->; apply cis_0).
    assert (Z1 : forall x, x = - PI -> cis x = Copp (RtoC 1)) by (intros x ->; unfold cis, Copp, RtoC; cbn [fst snd]; rewrite cos_neg, sin_neg, cos_PI, sin_PI, Ropp_0; reflexivity).
    assert (Z2 : forall x, x = - (2 * PI) -> cis x = RtoC 1) by (intros x ->; unfold cis; rewrite cos_neg, sin_neg, cos_2PI, sin_2PI, Ropp_0; reflexivity).
    repeat match goal with |- context [cis ?e] => first [rewrite (Z0 e) by field|rewrite (Z1 e) by field|rewrite (Z2 e) by field] end.
    apply quad; ring. }
  rewrite F. unfold fftshift2, fftshift, power_pattern, map2d. cbn [length Nat.sub Nat.div Nat.divmod fst skipn firstn map app].
  assert (Q : forall z, Cmod z ^ 2 = fst z ^ 2 + snd z ^ 2) by (intros z; unfold Cmod; rewrite pow2_sqrt by nra; ring).
  rewrite !Q. unfold p, m, cis, Cminus, Cplus, Copp, Cmult, RtoC. cbn [fst snd]. rewrite cos_plus, sin_plus, cos_minus, sin_minus.
  pose proof (sin2_cos2 c0) as N. unfold Rsqr in N. apply quad; try ring.
  - transitivity (16 * A ^ 2 * sin f ^ 2 * (sin c0 * sin c0 + cos c0 * cos c0)); [ring|rewrite N; ring].
  - transitivity (16 * A ^ 2 * cos f ^ 2 * (sin c0 * sin c0 + cos c0 * cos c0)); [ring|rewrite N; ring].
Qed.

(** ** The model at the three points *)
Definition spot_x : list R := [0; - (1 / 2000); - (1 / 2000)].
Definition spot_y : list R := [0; 0; - (1 / 2000)].
Definition spot_A : R := par_value 1 (- (29 / 2)) (7 / 5) 50 50.
Lemma spot_A_pos : 0 < spot_A.
Proof.
  pose proof (par_decreasing 1 (- (29 / 2)) (7 / 5) 50 49 50 ltac:(lra) ltac:(lra) ltac:(lra) ltac:(lra) ltac:(lra) ltac:(lra)) as [[G _] _]. pose proof (c_dB_pos (- (29 / 2))). fold spot_A in G. lra.
Qed.
Lemma spot_aperture t z : exists E c0, aperture illum_parabolic demo_tel [1; - (29 / 2); 7 / 5; 0; 0] [0; 0; 0; t; t; t] z (1 / 100) = Ok E /\
  forall x y, x ^ 2 = 5 ^ 2 -> y ^ 2 = 5 ^ 2 -> E x y = Cmult (RtoC spot_A) (cis (c0 + t * PI / 25 * (x * y / 5 ^ 2))).
Proof.
  destruct (proj1 (par_arity [1; - (29 / 2); 7 / 5; 0; 0] 50) eq_refl) as [Ea EI].
  destruct (aperture_ok illum_parabolic demo_tel [1; - (29 / 2); 7 / 5; 0; 0] [0; 0; 0; t; t; t] z (1 / 100) 2 Ea eq_refl EI) as (E & HE & HV).
  exists E, (2 * PI * (t * radial 2 0 (sqrt 50 / 50) + z * opd_factor 30 300 50 / (1 / 100))). split; [exact HE|].
  intros x y X Y. rewrite HV. f_equal.
  - f_equal. replace (block_dist demo_tel x y) with 1.
    + rewrite Rmult_1_l. rewrite (par_inside 1 (- (29 / 2)) (7 / 5) 0 0 50 Ea x y ltac:(lra) EI); rewrite !Rminus_0_r, X, Y; [unfold spot_A; f_equal; lra|lra].
    + symmetry. cbn [block_dist demo_tel]. apply block_manual_iff. unfold annulus, legs. rewrite X, Y.
      assert (Hf : forall t, t ^ 2 = 5 ^ 2 -> ~ Rabs t < 1) by (intros s T A; apply Rabs_lt_iff in A; nra).
      split; [lra|]. intros [[_ A]|[_ A]]; [exact (Hf y Y A)|exact (Hf x X A)].
  - destruct (corner_angle x y (5 ^ 2) ltac:(lra) X Y) as [C S]. change (tel_pr demo_tel) with 50. replace (x ^ 2 + y ^ 2) with 50 by (rewrite X, Y; ring).
    assert (Q : sqrt 50 * sqrt 50 = 50) by (apply sqrt_sqrt; lra). assert (R0 : sqrt 50 / 50 <> 0) by (pose proof (sqrt_lt_R0 50 ltac:(lra)); lra).
    rewrite (series_two t _ _ R0 C), S. change (opd_func demo_tel x y z) with (opd_manual 30 300 x y z). rewrite opd_radial by lra. replace (x ^ 2 + y ^ 2) with 50 by (rewrite X, Y; ring).
    f_equal. replace ((sqrt 50 / 50) ^ 2) with (1 / 50) by (replace ((sqrt 50 / 50) ^ 2) with (sqrt 50 * sqrt 50 / 2500) by field; rewrite Q; field). field.
Qed.
Lemma spot_row t u v z i : nth_error u i = Some spot_x -> nth_error v i = Some spot_y -> nth_error z i <> None ->
  model_row illum_parabolic demo_tel [1; - (29 / 2); 7 / 5; 0; 0; 0; 0; 0; t; t; t] u v z (1 / 100) 2 (1 / 10) i =
  Ok [16 * spot_A ^ 2 * cos (t * PI / 25) ^ 2; 0; 16 * spot_A ^ 2 * sin (t * PI / 25) ^ 2].
Proof.
  intros HU HV HZ. destruct (nth_error z i) as [dz|] eqn:EZ; [|congruence]. unfold model_row, py_get. cbn [firstn skipn]. rewrite EZ, HU, HV. cbn [bind].
  rewrite rad_unfold by lia. cbv zeta. destruct (spot_aperture t dz) as (E & c0 & HE & H). rewrite HE. cbn [bind].
  change (tel_pr demo_tel) with 50. replace (50 * (1 / 10)) with 5 by field.
  assert (AX : map (fun s => s * (1 / 100)) (fftshift (fftfreq 2 (gx 5 2 1 - gx 5 2 0))) = [- (1 / 2000); 0]).
  { unfold fftshift, fftfreq, gx. cbn [Nat.sub Nat.div Nat.divmod fst Nat.add seq map app length skipn firstn INR Z.of_nat Z.sub Z.add Z.opp Z.pos_sub Pos.of_succ_nat]. f_equal; [field|f_equal; field]. }
  rewrite AX, (corner_power E 5 spot_A c0 (t * PI / 25) H ltac:(lra)). set (P := 16 * spot_A ^ 2 * cos (t * PI / 25) ^ 2). set (Q := 16 * spot_A ^ 2 * sin (t * PI / 25) ^ 2).
  assert (IN : increasing [- (1 / 2000); 0]) by (intros a b Hab; cbn [length] in Hab; destruct a as [|[|a]], b as [|[|b]]; try lia; cbn [nth]; lra).
  pose proof (interp_node [- (1 / 2000); 0] [- (1 / 2000); 0] [[Q; 0]; [0; P]]) as ND.
  assert (B0 : in_bounds [- (1 / 2000); 0] 0 = true) by (unfold in_bounds, Rleb; cbn [nth length Nat.sub]; destruct (Rle_dec (- (1 / 2000)) 0), (Rle_dec 0 0); try lra; reflexivity).
  assert (B1 : in_bounds [- (1 / 2000); 0] (- (1 / 2000)) = true) by (unfold in_bounds, Rleb; cbn [nth length Nat.sub]; destruct (Rle_dec (- (1 / 2000)) (- (1 / 2000))), (Rle_dec (- (1 / 2000)) 0); try lra; reflexivity).
  unfold interp_points, spot_x, spot_y. cbn [length Nat.eqb forallb]. rewrite B0, B1. cbn [andb map2]. f_equal.
  pose proof (ND 1%nat 1%nat IN IN) as N1. pose proof (ND 0%nat 1%nat IN IN) as N2. pose proof (ND 0%nat 0%nat IN IN) as N3. cbn [nth length] in N1, N2, N3.
  rewrite N1, N2, N3 by lia. reflexivity.
Qed.
Lemma spot_norm P Q : 0 <= Q < P -> norm_all [Fin P; Fin 0; Fin Q] = Ok [1; 0; Q / P].
Proof.
  intros H. unfold norm_all, np_min, np_max. cbn [fold_left bind]. rewrite !PNorm.nmin_Fin, !PNorm.nmax_Fin.
  rewrite (Rmin_right P 0), (Rmin_left 0 Q), (Rmax_left P 0), (Rmax_left P Q) by lra. cbn [map]. unfold norm_by, nsub, nneg, nadd, ndiv. destruct (Req_EM_T (P + - 0) 0); [lra|]. cbn [nan_to_num]. f_equal. f_equal; [field; lra|]. f_equal; [field; lra|]. f_equal. field. lra.
Qed.
Definition spot_beam : list num := [Fin 1; Fin 0; Fin 0].
Definition best_args (N : nat) : fit_args := {|
  fa_name := "obs"; fa_pthto := ["w"%string]; fa_object := "3C84"; fa_date := "today"; fa_freq := 32; fa_wavel := 1 / 100; fa_d_z := [-1; 0; 1]; fa_meanel := 45;
  fa_beam := [spot_beam; spot_beam; spot_beam]; fa_u := [spot_x; spot_x; spot_x]; fa_v := [spot_y; spot_y; spot_y]; fa_order_max := N;
  fa_illum := illum_parabolic; fa_illum_name := "parabolic"; fa_tel := demo_tel; fa_opd_name := "manual"; fa_tel_name := "manual";
  fa_resolution := 2; fa_box_factor := 1 / 10; fa_fit_previous := true; fa_config_file := None; fa_make_plots := true; fa_work_dir := None |}.
Lemma spot_residual N t : 0 <= sin (t * PI / 25) < cos (t * PI / 25) -> let q := sin (t * PI / 25) ^ 2 / cos (t * PI / 25) ^ 2 in
  let a := best_args N in
  residual_true (fa_illum a) (fa_tel a) [1; - (29 / 2); 7 / 5; 0; 0; 0; 0; 0; t; t; t] (fa_beam a) (fa_u a) (fa_v a) (fa_d_z a) (fa_wavel a) (fa_resolution a) (fa_box_factor a) =
  Ok [0; 0; - q; 0; 0; - q; 0; 0; - q].
Proof.
  intros H q a. unfold residual_true. cbv zeta. cbn [fa_illum fa_tel fa_beam fa_u fa_v fa_d_z fa_wavel fa_resolution fa_box_factor a best_args map].
  rewrite (fill3 _ _ _ _ _ _ _ (spot_row t [spot_x; spot_x; spot_x] [spot_y; spot_y; spot_y] [-1; 0; 1] 0 eq_refl eq_refl ltac:(discriminate)) (spot_row t [spot_x; spot_x; spot_x] [spot_y; spot_y; spot_y] [-1; 0; 1] 1 eq_refl eq_refl ltac:(discriminate)) (spot_row t [spot_x; spot_x; spot_x] [spot_y; spot_y; spot_y] [-1; 0; 1] 2 eq_refl eq_refl ltac:(discriminate))) by reflexivity. cbn [bind].
  pose proof spot_A_pos as AP. rewrite !PNorm.norm_rows_eq. cbn [map mapM]. unfold spot_beam. rewrite (spot_norm 1 0) by lra. rewrite spot_norm.
  - cbn [bind map2 concat app]. replace (16 * spot_A ^ 2 * sin (t * PI / 25) ^ 2 / (16 * spot_A ^ 2 * cos (t * PI / 25) ^ 2)) with q by (unfold q; field; split; lra). unfold Rdiv. rewrite Rmult_0_l. repeat f_equal; ring.
  - assert (0 < spot_A ^ 2) by nra. assert (0 <= sin (t * PI / 25) ^ 2 < cos (t * PI / 25) ^ 2) by nra. nra.
Qed.

Lemma misfit_spot N t : misfit (best_args N) default_config 2 [1; 0; 0; t; t; t] =
  let a := best_args N in residual_true (fa_illum a) (fa_tel a) [1; - (29 / 2); 7 / 5; 0; 0; 0; 0; 0; t; t; t] (fa_beam a) (fa_u a) (fa_v a) (fa_d_z a) (fa_wavel a) (fa_resolution a) (fa_box_factor a).
Proof. reflexivity. Qed.
Lemma first_feasible : feasible default_config 1 [1; 0; 0].
Proof.
  exists [0; -5; -5], [10; 5; 5]. split; [reflexivity|]. split; [reflexivity|]. split; [reflexivity|]. split; [reflexivity|]. intros i Hi. cbn [length] in Hi. destruct i as [|[|[|i]]]; [| | |lia]; cbn [nth]; lra.
Qed.
Lemma first_exact N : misfit (best_args N) default_config 1 [1; 0; 0] = Ok (repeat 0 9).
Proof.
  destruct (nested (best_args N) default_config 1 1 [1; 0; 0] PFit6.default_valid ltac:(lia) first_feasible) as [_ E]. rewrite <- E. change ([1; 0; 0] ++ repeat 0 (coeffs (1 + 1) - coeffs 1)) with [1; 0; 0; 0; 0; 0]. change (1 + 1)%nat with 2%nat.
  rewrite misfit_spot. rewrite spot_residual; unfold Rdiv; rewrite !Rmult_0_l, sin_0; [|rewrite cos_0; lra]. cbn [pow repeat]. rewrite !Rmult_0_l, Ropp_0. reflexivity.
Qed.
Lemma pad_exact N n : (1 <= n)%nat -> feasible default_config n (1 :: repeat 0 (coeffs n - 1)) /\ misfit (best_args N) default_config n (1 :: repeat 0 (coeffs n - 1)) = Ok (repeat 0 9).
Proof.
  intros Hn. destruct (nested (best_args N) default_config 1 (n - 1) [1; 0; 0] PFit6.default_valid ltac:(lia) first_feasible) as [F E]. rewrite first_exact in E. replace (1 + (n - 1))%nat with n in F, E by lia.
  change (coeffs 1) with 3%nat in F, E. pose proof (coeffs_3 n Hn). replace (coeffs n - 1)%nat with (2 + (coeffs n - 3))%nat by lia. rewrite repeat_app. split; assumption.
Qed.
Lemma misfit_total N n x : (1 <= n)%nat -> feasible default_config n x -> length x = coeffs n /\ exists r, misfit (best_args N) default_config n x = Ok r /\ length r = 9%nat.
Proof.
  intros Hn F. pose proof PFit6.default_valid as V. pose proof V as (V1 & V2 & V3 & V4 & _).
  assert (HS : Sorted lt [1; 2; 3; 4; 5]%nat) by (repeat constructor; lia). assert (HE : forall e, In e [1; 2; 3; 4; 5]%nat -> (e < 8)%nat) by (cbn; intros e He; lia).
  pose proof (feasible_shape default_config n x [1; 2; 3; 4; 5]%nat V Hn eq_refl HS HE F) as L. cbn [length] in L. split; [lia|].
  destruct (complete_always (cf_fixed default_config) [1; 2; 3; 4; 5]%nat n x V2 HS HE Hn L) as [p E].
  destruct (complete_pad (cf_fixed default_config) [1; 2; 3; 4; 5]%nat n n 0 x p V2 HS HE Hn L ltac:(lia) E) as [Lp _].
  unfold misfit, residual. change (cf_excluded default_config) with (map Z.of_nat [1; 2; 3; 4; 5]%nat). rewrite E. cbn [bind].
  destruct (proj1 (par_arity (firstn 5 p) 50)) as [Ea EI]; [rewrite firstn_length; lia|].
  destruct (residual_grid illum_parabolic demo_tel p n spot_beam spot_beam spot_beam spot_x spot_x spot_x spot_y spot_y spot_y (-1) 0 1 (1 / 100) 2 (1 / 10) Ea) as [G _]; try reflexivity; try (cbn; lra); try lia; try discriminate; try exact EI.
  - rewrite Lp. pose proof (coeffs_twice n). lia.
  - destruct G as (r & R & Lr); [|exists r; split; [exact R|exact Lr]].
    intros y Hy. unfold in_grid, SCore.grid_step. cbn [tel_pr demo_tel Nat.div Nat.divmod fst Nat.sub INR]. cbn [In app spot_x spot_y] in Hy.
    repeat destruct Hy as [<-|Hy]; lra.
Qed.

(** ** Optimizers that try one candidate *)
Definition pick (cand : list R -> list R) : oracle := {|
  or_lsq := fun f x0 _ _ =>
    let stay := Ok {| lo_x := x0; lo_fun := [0; 0; 0]; lo_jac := []; lo_grad := [] |} in
    match f (cand x0) with
    | Ok r => if Nat.eqb (length (cand x0)) (length x0) && Nat.eqb (length r mod 3) 0
              then Ok {| lo_x := cand x0; lo_fun := r; lo_jac := []; lo_grad := [] |} else stay
    | Err _ => stay
    end;
  or_comat := or_comat demo_oracle; or_griddata := or_griddata demo_oracle; or_round2 := or_round2 demo_oracle; or_draw := or_draw demo_oracle |}.
Lemma pick_cooperative cand : cooperative (pick cand).
Proof.
  destruct demo_cooperative as (_ & H2 & H3). split; [|split; assumption]. intros f x0 lo hi. cbn [or_lsq pick]. destruct (f (cand x0)) as [r|e]; [|eexists; split; [reflexivity|split; reflexivity]].
  destruct (Nat.eqb (length (cand x0)) (length x0)) eqn:E1, (Nat.eqb (length r mod 3) 0) eqn:E2; cbn [andb]; eexists; (split; [reflexivity|]); cbn [lo_x lo_fun]; try (split; reflexivity).
  apply Nat.eqb_eq in E1, E2. split; assumption.
Qed.
Lemma pick_runs cand N : exists s', run (fit_zpoly (pick cand) (best_args N)) demo_fs = (Ok tt, s').
Proof.
  apply (fit_completes _ _ _ default_config); [exact demo_tree|split; [reflexivity|right; reflexivity]|exists 0%nat; split; [lia|apply demo_numbered]|reflexivity|exact PFit6.default_valid|apply pick_cooperative|cbn; lra|].
  repeat split; try (cbn; lia); destruct i as [|[|[|i]]]; cbn; discriminate || lia.
Qed.
Lemma picked cand N n start out : (1 <= n)%nat -> length start = (5 + coeffs n)%nat -> answered (pick cand) (best_args N) default_config n start out ->
  exists x0, np_delete start (cf_excluded default_config) = Ok x0 /\ length x0 = coeffs n /\
    (feasible default_config n (cand x0) -> lo_x out = cand x0 /\ misfit (best_args N) default_config n (cand x0) = Ok (lo_fun out)).
Proof.
  intros Hn L (x0 & lo & hi & D & _ & _ & A). exists x0. split; [exact D|].
  assert (HS : Sorted lt [1; 2; 3; 4; 5]%nat) by (repeat constructor; lia).
  assert (L0 : length x0 = coeffs n).
  { pose proof (coeffs_3 n Hn). change (cf_excluded default_config) with (map Z.of_nat [1; 2; 3; 4; 5]%nat) in D. rewrite np_delete_nat in D by (cbn; intros e He; lia). apply Ok_inj in D. subst x0. pose proof (delete_at_length start 0 [1; 2; 3; 4; 5]%nat HS ltac:(cbn; intros e He; lia)) as X. cbn [length] in X. lia. }
  split; [exact L0|]. intros F. destruct (misfit_total N n (cand x0) Hn F) as (LC & r & R & Lr). cbn [or_lsq pick] in A. rewrite R in A. rewrite LC, L0, Nat.eqb_refl, Lr in A. cbn [andb Nat.modulo Nat.divmod snd Nat.sub Nat.eqb] in A. apply Ok_inj in A. subst out. cbn [lo_x lo_fun]. split; [reflexivity|exact R].
Qed.
Definition home (x0 : list R) : list R := 1 :: repeat 0 (length x0 - 1).
Definition lazy (x0 : list R) : list R := if Nat.eqb (length x0) 3 then [1; 0; 0] else x0.
Lemma zeros_sum k : sum_sq (repeat 0 k) = 0.
Proof. induction k as [|k IH]; [reflexivity|]. cbn [repeat]. rewrite sum_sq_cons, IH. ring. Qed.
Lemma home_optimal N n start out : (1 <= n <= N)%nat -> length start = (5 + coeffs n)%nat -> answered (pick home) (best_args N) default_config n start out -> optimal (best_args N) default_config n 0 out.
Proof.
  intros [Hn _] L A. destruct (picked home N n start out Hn L A) as (x0 & _ & L0 & H). unfold home in H. rewrite L0 in H. destruct (pad_exact N n Hn) as [F E]. destruct (H F) as [X R]. unfold optimal. rewrite X. split; [exact F|]. split; [exact R|].
  rewrite E in R. apply Ok_inj in R. rewrite <- R, zeros_sum. intros x r _ _. pose proof (sum_sq_nonneg r). lra.
Qed.
Lemma lazy_descends N n start out : (1 <= n <= N)%nat -> length start = (5 + coeffs n)%nat -> answered (pick lazy) (best_args N) default_config n start out -> descended (best_args N) default_config n start out.
Proof.
  intros [Hn _] L A x0 D F. destruct (picked lazy N n start out Hn L A) as (y0 & D' & L0 & H). rewrite D in D'. apply Ok_inj in D'. subst y0. unfold lazy in H. rewrite L0 in H. destruct (Nat.eqb_spec (coeffs n) 3) as [E3|E3].
  - assert (n = 1)%nat as -> by (pose proof (coeffs_twice n); nia). destruct (H first_feasible) as [X R]. rewrite X. split; [exact first_feasible|]. split; [exact R|]. rewrite first_exact in R. apply Ok_inj in R. rewrite <- R, zeros_sum. intros r _. apply sum_sq_nonneg.
  - destruct (H F) as [X R]. rewrite X. split; [exact F|]. split; [exact R|]. intros r R'. rewrite R in R'. apply Ok_inj in R'. rewrite R'. apply Rle_refl.
Qed.

(** Order 2 starts from the solution of order 1 with 0.1 for its three new coefficients:
    staying there is a descent, and is worse than order 1. *)
Lemma spot_angle : 0 < sin (1 / 10 * PI / 25) < cos (1 / 10 * PI / 25).
Proof.
  pose proof PI_RGT_0 as P. split; [apply sin_gt_0; lra|]. apply Rlt_trans with (sin (PI / 4)); [apply sin_increasing_1; lra|]. rewrite sin_cos_PI4. apply cos_decreasing_1; lra.
Qed.
Lemma lazy_worse : exists s' j r1 r2, run (fit_zpoly (pick lazy) (best_args 2)) demo_fs = (Ok tt, s') /\
  (j <= 100)%nat /\ demo_fs (numbered (fit_dir (best_args 2)) "obs" j) = None /\
  csv_file s' (numbered (fit_dir (best_args 2)) "obs" j) "res_n1.csv" "Residual obs" (A2 (map (map Fin) r1)) /\
  csv_file s' (numbered (fit_dir (best_args 2)) "obs" j) "res_n2.csv" "Residual obs" (A2 (map (map Fin) r2)) /\ sum_sq (concat r1) = 0 /\ 0 < sum_sq (concat r2).
Proof.
  destruct (pick_runs lazy 2) as [s' R]. exists s'.
  destruct (stored_together (pick lazy) (best_args 2) demo_fs s' default_config demo_tree R ltac:(exists 0%nat; split; [lia|apply demo_numbered]) eq_refl) as (j & snrs & Hj & Hn & _ & _ & H).
  destruct (H 1%nat ltac:(cbn; lia)) as (rows1 & out1 & r1 & xy1 & ph1 & cov1 & cor1 & idx1 & G1 & G2 & G3 & G4 & G5 & G6 & G7 & _).
  destruct (H 2%nat ltac:(cbn; lia)) as (rows2 & out2 & r2 & xy2 & ph2 & cov2 & cor2 & idx2 & K1 & K2 & K3 & K4 & K5 & K6 & K7 & _).
  exists j, r1, r2. split; [exact R|]. split; [exact Hj|]. split; [exact Hn|]. split; [exact G6|]. split; [exact K6|]. rewrite G7, K7.
  destruct (picked lazy 2 1 (map parinit rows1) out1 ltac:(lia) ltac:(rewrite map_length; exact G2) G4) as (x1 & _ & L1 & A1).
  unfold lazy in A1. rewrite L1 in A1. change (Nat.eqb (coeffs 1) 3) with true in A1. cbv iota in A1. destruct (A1 first_feasible) as [X1 R1]. rewrite first_exact in R1. apply Ok_inj in R1. rewrite <- R1, zeros_sum. split; [reflexivity|].
  rewrite X1 in G5. change (params_complete (cf_fixed default_config) (cf_excluded default_config) (coeffs 1) [1; 0; 0]) with (Ok [1; - (29 / 2); 7 / 5; 0; 0; 0; 0; 0]) in G5. apply Ok_inj in G5.
  destruct K3 as [_ K3]. destruct (K3 eq_refl ltac:(lia)) as (rows' & F' & S'). change (2 - 1)%nat with 1%nat in F'. assert (rows1 = rows') as <- by (unfold fitpar_rows in G1, F'; congruence).
  rewrite <- G5 in S'. cbn [Nat.add repeat app] in S'.
  destruct (picked lazy 2 2 (map parinit rows2) out2 ltac:(lia) ltac:(rewrite map_length; exact K2) K4) as (x2 & D2 & L2 & A2).
  rewrite S' in D2. change (Ok [1; 0; 0; 1 / 10; 1 / 10; 1 / 10] = Ok x2) in D2. apply Ok_inj in D2. subst x2. change (lazy [1; 0; 0; 1 / 10; 1 / 10; 1 / 10]) with [1; 0; 0; 1 / 10; 1 / 10; 1 / 10] in A2.
  destruct A2 as [_ R2].
  { exists [0; -5; -5; -5; -5; -5], [10; 5; 5; 5; 5; 5]. split; [reflexivity|]. split; [reflexivity|]. split; [reflexivity|]. split; [reflexivity|]. intros i Hi. cbn [length] in Hi. do 6 (destruct i as [|i]; [cbn [nth]; lra|]). lia. }
  rewrite misfit_spot in R2. pose proof spot_angle as SA. rewrite spot_residual in R2 by lra. apply Ok_inj in R2. rewrite <- R2. set (q := sin (1 / 10 * PI / 25) ^ 2 / cos (1 / 10 * PI / 25) ^ 2).
  assert (0 < q) by (unfold q; apply Rdiv_lt_0_compat; nra). unfold sum_sq. cbn [fold_right]. nra.
Qed.
