(** Figures of a run in progress. *)
From Coq Require Import String Ascii List Lia Lra.
From Verif Require Import PyBase PyLib Num MZernike MMath MAperture MTel MRad MCore MFs MOut MPlot MTab SZernike SMath SAct SOut SFit SOrder SPlot SPool PIllum PFs PParams PFit7 PFit6 PFit4 PRad PDemo PDemo2 PPlot6 PTab PPool2 PConc PFit3 PLook PLook2.
Import ListNotations.
Open Scope R_scope.
Open Scope string_scope.
Open Scope list_scope.

Lemma draw_first N save : (1 <= N)%nat -> exists s' j, run (fit_zpoly plot_oracle (plot_args N)) demo_fs = (Ok tt, s') /\
  exists figs, fst (run (draw_fit_path flat_griddata plain_printers true (numbered ["w"] "obs" j) 1 illum_parabolic demo_tel degrees_unit None save) s') = Ok figs /\ length figs = 6%nat.
Proof.
  intros L. destruct (plot_runs N) as [s' E]. exists s'.
  assert (X : exists j, (j <= 100)%nat /\ demo_fs (numbered (fit_dir (plot_args N)) (fa_name (plot_args N)) j) = None /\
    forall n, (1 <= n <= fa_order_max (plot_args N))%nat -> exists figs, fst (run (draw_fit_path flat_griddata plain_printers true (numbered (fit_dir (plot_args N)) (fa_name (plot_args N)) j) n illum_parabolic demo_tel degrees_unit None save) s') = Ok figs /\
      length figs = if Nat.eqb n 1 then 6%nat else 5%nat).
  { apply (draw_returns flat_griddata plain_printers true plot_oracle (plot_args N) demo_fs s' default_config illum_parabolic demo_tel degrees_unit None save 2
    demo_tree E (demo_free "obs" N) eq_refl default_valid flat_shape); try (cbn; lra).
  - lia.
  - split; [reflexivity|repeat constructor].
  - split; [reflexivity|repeat constructor].
  - split; [reflexivity|repeat constructor].
  - exists 0, 1. cbn. split; [auto|]. split; [auto|lra].
  - apply Nat.leb_le. reflexivity.
  - exact degrees_pos.
  - cbn. lia.
  - exact parabolic_five.
  - intros f x0 lo hi out X. inversion X. cbn. lia.
  - intros r J k cov cor X. inversion X. split; apply repeat_rect.
  - exists 0%nat, 6%nat. split; [lia|]. cbn. split; intros X; repeat (destruct X as [X|X]; [discriminate X|]); destruct X. }
  destruct X as (j & _ & _ & X). exists j. split; [exact E|]. apply (X 1%nat). cbn [fa_order_max plot_args]. lia.
Qed.
Lemma draw_early : exists k j sf figs, run (fit_zpoly plot_oracle (plot_args 3)) demo_fs = (Ok tt, sf) /\ free_number (plot_args 3) demo_fs /\
  let st := snd (steps k (fit_zpoly plot_oracle (plot_args 3)) demo_fs) in st <> sf /\
  fst (run (draw_fit_path flat_griddata plain_printers true (numbered ["w"] "obs" j) 1 illum_parabolic demo_tel degrees_unit None false) st) = Ok figs /\ length figs = 6%nat.
Proof.
  destruct (plot_runs 3) as [sf E]. destruct (fit_pauses plot_oracle (plot_args 3) 1 demo_fs sf E) as (k & s1 & Hk & R1); [cbn; lia|].
  change (with_orders (plot_args 3) 1) with (plot_args 1) in R1. destruct (draw_first 1 false ltac:(lia)) as (s' & j & R & figs & D & Lf).
  assert (s' = s1) as -> by congruence. exists k, j, sf, figs. split; [exact E|]. split; [exact (demo_free "obs" 3)|]. cbv zeta. rewrite Hk. split; [|split; assumption].
  intros ->. destruct (fit_files plot_oracle (plot_args 3) demo_fs sf demo_tree E (demo_free "obs" 3)) as (i & _ & D3 & _ & F3 & _).
  destruct (fit_files plot_oracle (plot_args 1) demo_fs sf demo_tree R1 (demo_free "obs" 1)) as (i' & _ & _ & _ & _ & _ & _ & Fr).
  destruct (F3 ["phase_n3.csv"]) as (dc & _ & X); [cbn; tauto|]. rewrite Fr in X.
  - rewrite (PFs.wf_under demo_fs _ _ demo_tree D3) in X. discriminate X.
  - intros [t A]. apply (f_equal (@length _)) in A. rewrite !app_length, !numbered_length in A. cbn [length] in A. change (fit_dir (plot_args 1)) with (fit_dir (plot_args 3)) in A. lia.
  - intros _ _ A. apply PScript.same_length_app in A as [_ A]; [discriminate A|rewrite !numbered_length; reflexivity].
  - intros f Hf A. apply PScript.same_length_app in A as [_ A]; [|rewrite !numbered_length; reflexivity].
    exact (phase_late 3 1 _ ltac:(lia) ltac:(lia) f Hf (eq_sym A)).
Qed.
