(** A concrete simulation for C79: two samples per axis inside the dish. *)
From Coq Require Import String Ascii List.
From Verif Require Import PyBase PyLib Sums Num MZernike SZernike MMath SMath MAperture PWave PAper PIllum STel PTel MTel MRad MFs MAct MAux MSim MCore SAux SSim SFit SOut SCore PNorm PRad PResid PAux PSim PSim2 PSim3 PFs PDemo PEnd.
From Coquelicot Require Import Complex.
Import ListNotations.
Open Scope R_scope.
Open Scope string_scope.
Open Scope list_scope.

Definition quiet_sim (noise : R) : sim_args := {|
  si_I := [1; -14; 2; 0; 0]; si_K := [1 / 8]; si_wavel := 1 / 100; si_d_z := [-2; 0; 3]; si_illum := illum_parabolic; si_tel := demo_tel;
  si_noise := noise; si_resolution := 2; si_box_factor := 1 / 10; si_work_dir := ["w"] |}.
Definition quiet_outside : sim_oracles := {| so_f32 := Fin; so_normal := fun x i r c => if Nat.even (i + r + c) then x else - x; so_now := "now" |}.

Lemma quiet_aperture z : exists E A, aperture illum_parabolic demo_tel [1; -14; 2; 0; 0] [1 / 8] z (1 / 100) = Ok E /\
  0 < Cmod A /\ forall x y, x ^ 2 = 25 -> y ^ 2 = 25 -> E x y = A.
Proof.
  destruct (proj1 (par_arity [1; -14; 2; 0; 0] 50) eq_refl) as [Ea EI].
  destruct (aperture_ok illum_parabolic demo_tel [1; -14; 2; 0; 0] [1 / 8] z (1 / 100) 0 Ea eq_refl EI) as (E & HE & HV).
  set (a := par_value 1 (-14) 2 50 50). set (ph := 2 * PI * (1 / 8 * circle 0 0 (sqrt (25 + 25) / 50) 0 + z * opd_factor 30 300 50 / (1 / 100))).
  exists E, (Cmult (RtoC a) (cis ph)). split; [exact HE|]. split.
  - rewrite Cmod_mult, Cmod_R, cis_mod, Rmult_1_r. apply Rabs_pos_lt.
    pose proof (par_decreasing 1 (-14) 2 50 49 50 ltac:(lra) ltac:(lra) ltac:(lra) ltac:(lra) ltac:(lra) ltac:(lra)) as [[G _] _]. pose proof (c_dB_pos (-14)). fold a in G. lra.
  - intros x y X Y. rewrite HV. f_equal.
    + f_equal. replace (block_dist demo_tel x y) with 1.
      * rewrite Rmult_1_l. rewrite (par_inside 1 (-14) 2 0 0 50 Ea x y ltac:(lra) EI); rewrite !Rminus_0_r, X, Y; [unfold a; f_equal; lra|lra].
      * symmetry. cbn [block_dist demo_tel]. apply block_manual_iff. unfold annulus, legs. rewrite X, Y.
        assert (Hf : forall t, t ^ 2 = 25 -> ~ Rabs t < 1) by (intros t T A; apply Rabs_lt_iff in A; nra).
        split; [lra|]. intros [[_ A]|[_ A]]; [exact (Hf y Y A)|exact (Hf x X A)].
    + unfold ph. f_equal. f_equal. f_equal.
      * unfold zernike_series. cbn [sum_upto Z.of_nat]. change (2 * 0 - 0)%Z with 0%Z. unfold coeff_of. change (coeff_pos 0 0) with 0%nat. cbn [nth]. f_equal.
        unfold circle. cbn [Z.abs Z.to_nat Z.ltb Z.compare]. rewrite !Rmult_0_l. rewrite X, Y. reflexivity.
      * change (opd_func demo_tel x y z) with (opd_manual 30 300 x y z). rewrite opd_radial by lra. rewrite X, Y. do 3 f_equal. lra.
Qed.

Lemma quiet_physical noise : physical (quiet_sim noise).
Proof. unfold physical. cbn. repeat split; lra. Qed.

Lemma quiet_beam noise z : exists u F D, beam_of (quiet_sim noise) z = Ok (u, u, F) /\ 0 < D /\
  D <= Cmod (at2 F 1 1) ^ 2 - Cmod (at2 F 0 0) ^ 2.
Proof.
  destruct (quiet_aperture z) as (E & A & HE & HA & HV).
  assert (HB : exists u F, beam_of (quiet_sim noise) z = Ok (u, u, F)).
  { unfold beam_of. cbn [si_illum si_tel si_I si_K si_wavel si_resolution si_box_factor quiet_sim].
    pose proof (rad_unfold illum_parabolic demo_tel [1; -14; 2; 0; 0] [1 / 8] z (1 / 100) 2 (1 / 10) ltac:(lia)) as U. cbv zeta in U. rewrite HE in U. cbn [bind] in U. eexists; eexists; exact U. }
  destruct HB as (u & F & HB). pose proof HB as HB'. unfold beam_of in HB'. cbn [si_illum si_tel si_I si_K si_wavel si_resolution si_box_factor quiet_sim] in HB'.
  destruct (parseval_api _ _ _ _ _ _ _ _ _ _ _ HB') as (E' & HE' & HP). rewrite HE in HE'. apply Ok_inj in HE'. subst E'. cbv zeta in HP. destruct HP as (HP1 & HP2 & _).
  assert (HX : forall i, (i < 2)%nat -> nth i (linspace (- (tel_pr demo_tel * (1 / 10))) (tel_pr demo_tel * (1 / 10)) 2) 0 ^ 2 = 25).
  { intros i I. destruct i as [|[|i]]; [| |lia]; unfold linspace; cbn [tel_pr demo_tel map seq nth INR Nat.sub Nat.eqb]; field. }
  assert (HS : forall i j, (i < 2)%nat -> (j < 2)%nat -> E (nth i (linspace (- (tel_pr demo_tel * (1 / 10))) (tel_pr demo_tel * (1 / 10)) 2) 0) (nth j (linspace (- (tel_pr demo_tel * (1 / 10))) (tel_pr demo_tel * (1 / 10)) 2) 0) = A) by (intros i j I J; apply HV; apply HX; assumption).
  exists u, F, (16 * Cmod A ^ 2). split; [exact HB|]. split; [nra|].
  change (2 / 2)%nat with 1%nat in HP2.
  cbn [Rsum Csum] in HP1, HP2. rewrite !HS in HP1, HP2 by lia.
  assert (E4 : Cmod (at2 F 1 1) = 4 * Cmod A).
  { rewrite HP2. match goal with |- Cmod ?e = _ => replace e with (Cmult (RtoC 4) A) by (unfold RtoC, Cmult, Cplus; destruct A; cbn; f_equal; ring) end.
    rewrite Cmod_mult, Cmod_R, Rabs_right by lra. reflexivity. }
  rewrite E4 in *. cbn [INR] in HP1.
  pose proof (pow2_ge_0 (Cmod (at2 F 0 1))). pose proof (pow2_ge_0 (Cmod (at2 F 1 0))). pose proof (pow2_ge_0 (Cmod (at2 F 0 0))). nra.
Qed.

Lemma quiet_runs noise : exists f s', run (simulate_data_pyoof quiet_outside (quiet_sim noise)) sim_fs = (Ok f, s') /\ sim_fs (sim_file (quiet_sim noise) 1) = None /\ s' (sim_file (quiet_sim noise) 1) <> None.
Proof.
  destruct (wavefront_series [1 / 8] 0 eq_refl) as (W & HW & _). destruct (proj1 (par_arity [1; -14; 2; 0; 0] 50) eq_refl) as [Ea EI].
  assert (N1 : sim_fs (sim_file (quiet_sim noise) 1) = None).
  { unfold sim_file, sim_fs, listed. destruct (in_dec _ _ _) as [I|_]; [exfalso; cbn in I; intuition discriminate|]. destruct (path_eq_dec _ _); [discriminate|reflexivity]. }
  assert (N0 : sim_fs (sim_file (quiet_sim noise) 0) <> None).
  { unfold sim_file, sim_fs, listed. destruct (in_dec _ _ _); [discriminate|]. destruct (path_eq_dec _ _) as [|X]; [discriminate|]. exfalso. apply X. reflexivity. }
  destruct (sim_total quiet_outside (quiet_sim noise) sim_fs (-2) 0 3 [] W Ea (quiet_physical noise) ltac:(cbn; lia) HW EI eq_refl) as (f & s' & R).
  - unfold offsets_ok. lra.
  - cbn [si_resolution si_box_factor quiet_sim]. intros i I. destruct i as [|[|i]]; [| |lia]; cbn [INR Nat.div Nat.divmod fst Nat.sub]; unfold Rabs; destruct (Rcase_abs _); lra.
  - exact sim_tree.
  - split; [reflexivity|right; reflexivity].
  - exists 1%nat. split; [lia|exact N1].
  - exists f, s'. split; [exact R|]. split; [exact N1|].
    destruct (sim_success _ _ _ _ _ sim_tree R) as (T & j & _ & ET & _ & J & N & Q & Wr & _).
    destruct j as [|[|j]]; [congruence|rewrite Wr; discriminate|exfalso; exact (Q 1%nat ltac:(lia) N1)].
Qed.
