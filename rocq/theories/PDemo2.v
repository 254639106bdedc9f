(** A run whose figures can be drawn. *)
From Coq Require Import String Ascii List Sorted Lia Lra.
From Verif Require Import PyBase PyLib Num MZernike MMath MAperture MTel MRad MCore MFs MOut MPlot SZernike SMath SAct SOut SFit SPlot PIllum PParams PFit7 PFit6 PRad PAper PDemo PPlot6.
Import ListNotations.
Open Scope R_scope.
Open Scope string_scope.
Open Scope list_scope.

(** As [demo_oracle], with six residuals and square matrices. *)
Definition plot_oracle : oracle := {|
  or_lsq := fun _ x0 _ _ => Ok {| lo_x := x0; lo_fun := [0; 0; 0; 0; 0; 0]; lo_jac := []; lo_grad := [] |};
  or_comat := fun _ _ k => Ok (repeat (repeat 0 k) k, repeat (repeat 0 k) k);
  or_griddata := fun _ _ _ _ _ => []; or_round2 := fun x => x; or_draw := fun _ => Ok tt |}.
(** As [demo_args], with two points per map. *)
Definition plot_args (N : nat) : fit_args := {|
  fa_name := "obs"; fa_pthto := ["w"]; fa_object := "3C84"; fa_date := "today"; fa_freq := 32; fa_wavel := 1 / 100; fa_d_z := [-1; 0; 1]; fa_meanel := 45;
  fa_beam := [[Fin 1; Fin 0]; [Fin 1; Fin 0]; [Fin 1; Fin 0]]; fa_u := [[0; 1]; [0; 1]; [0; 1]]; fa_v := [[0; 1]; [0; 1]; [0; 1]]; fa_order_max := N;
  fa_illum := illum_parabolic; fa_illum_name := "parabolic"; fa_tel := demo_tel; fa_opd_name := "manual"; fa_tel_name := "manual";
  fa_resolution := 256; fa_box_factor := 5; fa_fit_previous := true; fa_config_file := None; fa_make_plots := true; fa_work_dir := None |}.
(** An interpolation that answers zero everywhere. *)
Definition flat_griddata (u v : list R) (b : list num) (x y : list R) : list (list num) := map (fun _ => map (fun _ => Fin 0) x) y.
Definition plain_printers : printers := {| pt_el := fun _ => "45.0"; pt_cm := fun _ => "2.2" |}.
Definition degrees_unit : angle_unit := {| au_name := "deg"; au_per_rad := 180 / PI |}.

Lemma flat_shape u v b x y : rect (length y) (length x) (flat_griddata u v b x y).
Proof. split; [apply map_length|]. apply Forall_forall. intros r Hr. apply in_map_iff in Hr. destruct Hr as (z & <- & _). apply map_length. Qed.
Lemma plot_cooperative : cooperative plot_oracle.
Proof.
  split; [|split].
  - intros f x0 lo hi. eexists. split; [reflexivity|]. split; reflexivity.
  - intros r J k. eexists _, _. split; [reflexivity|]. split; intros row H; apply repeat_spec in H; subst row; apply repeat_length.
  - reflexivity.
Qed.
Lemma plot_maps N : three_maps (plot_args N).
Proof. repeat split; try (cbn; lia); destruct i as [|[|[|i]]]; cbn; discriminate || lia. Qed.
Lemma plot_runs N : exists s', run (fit_zpoly plot_oracle (plot_args N)) demo_fs = (Ok tt, s').
Proof.
  apply (fit_completes _ _ _ default_config); [exact demo_tree|exact (demo_usable "obs" N)|exact (demo_free "obs" N)|reflexivity|exact default_valid|exact plot_cooperative|cbn; lra|apply plot_maps].
Qed.
Lemma degrees_pos : 0 < au_per_rad degrees_unit.
Proof. cbn. pose proof PI_RGT_0. apply Rdiv_lt_0_compat; lra. Qed.
Lemma parabolic_five I : length I = 5%nat -> exists Ea, illum_parabolic I (tel_pr demo_tel) = Ok Ea.
Proof. intros L. destruct I as [|a [|b [|c [|d [|e [|? ?]]]]]]; try discriminate L. eexists. reflexivity. Qed.
Lemma repeat_rect {A} (x : A) k n : rect n k (repeat (repeat x k) n).
Proof. split; [apply repeat_length|]. apply Forall_forall. intros r Hr. apply repeat_spec in Hr. subst r. apply repeat_length. Qed.
Lemma plot_demo : exists s', file_tree demo_fs /\ run (fit_zpoly plot_oracle (plot_args 3)) demo_fs = (Ok tt, s') /\ free_number (plot_args 3) demo_fs /\
  configured (plot_args 3) demo_fs default_config /\
  exists j, (j <= 100)%nat /\ demo_fs (numbered ["w"] "obs" j) = None /\ forall n, (1 <= n <= 3)%nat -> exists figs,
    fst (run (draw_fit_path flat_griddata plain_printers true (numbered ["w"] "obs" j) n illum_parabolic demo_tel degrees_unit None true) s') = Ok figs /\
    length figs = if Nat.eqb n 1 then 6%nat else 5%nat.
Proof.
  destruct (plot_runs 3) as [s' E]. exists s'. split; [exact demo_tree|]. split; [exact E|]. split; [exact (demo_free "obs" 3)|]. split; [reflexivity|].
  pose proof (draw_returns flat_griddata plain_printers true plot_oracle (plot_args 3) demo_fs s' default_config illum_parabolic demo_tel degrees_unit None true 2
    demo_tree E (demo_free "obs" 3) eq_refl default_valid flat_shape) as H.
  apply H; clear H; try (cbn; lra).
  - lia.
  - split; [reflexivity|repeat constructor].
  - split; [reflexivity|repeat constructor].
  - split; [reflexivity|repeat constructor].
  - exists 0, 1. cbn. split; [auto|]. split; [auto|lra].
  - apply Nat.leb_le. reflexivity.
  - exact degrees_pos.
  - cbn. lia.
  - exact parabolic_five.
  - intros f x0 lo hi out X. inversion X. cbn. lia.
  - intros r J k cov cor X. inversion X. split; apply repeat_rect.
  - exists 0%nat, 6%nat. split; [lia|]. cbn. split; intros X; repeat (destruct X as [X|X]; [discriminate X|]); destruct X.
Qed.
Lemma demo_pattern d : exists r, radiation_pattern illum_parabolic demo_tel [1; -10; 2; 0; 0] [0; 0; 1] d (1 / 100) 4 5 = Ok r.
Proof.
  destruct (parabolic_five [1; -10; 2; 0; 0] eq_refl) as (Ea & HE).
  destruct (aperture_ok illum_parabolic demo_tel [1; -10; 2; 0; 0] [0; 0; 1] d (1 / 100) 1 Ea eq_refl HE) as (E0 & EE & _).
  rewrite rad_unfold by lia. rewrite EE. cbn [bind]. eexists. reflexivity.
Qed.
