(** A finished run that can be looked at while other fits are running. *)
From Coq Require Import String Ascii List Lia Lra Arith.
From Verif Require Import PyBase PyLib Num MZernike MMath MAperture MTel MRad MCore MFs MOut MPlot MTab SZernike SMath SAct SOut SFit SPlot SPool PIllum PFs PParams PFit7 PFit6 PFit4 PRad PDemo PDemo2 PPlot6 PTab PPool2 PConc PFit3.
Import ListNotations.
Open Scope R_scope.
Open Scope string_scope.
Open Scope list_scope.

Lemma seen_figures s' : run (fit_zpoly plot_oracle (plot_args 3)) demo_fs = (Ok tt, s') ->
  exists j, (j <= 100)%nat /\ demo_fs (numbered ["w"] "obs" j) = None /\ forall n, (1 <= n <= 3)%nat -> exists figs,
    fst (run (draw_fit_path flat_griddata plain_printers true (numbered ["w"] "obs" j) n illum_parabolic demo_tel degrees_unit None false) s') = Ok figs /\
    length figs = if Nat.eqb n 1 then 6%nat else 5%nat.
Proof.
  intros E. pose proof (draw_returns flat_griddata plain_printers true plot_oracle (plot_args 3) demo_fs s' default_config illum_parabolic demo_tel degrees_unit None false 2
    demo_tree E (demo_free "obs" 3) eq_refl default_valid flat_shape) as H.
  apply H; clear H; try (cbn; lra).
  - lia.
  - split; [reflexivity|repeat constructor].
  - split; [reflexivity|repeat constructor].
  - split; [reflexivity|repeat constructor].
  - exists 0, 1. cbn. split; [auto|]. split; [auto|lra].
  - apply Nat.leb_le. reflexivity.
  - exact degrees_pos.
  - cbn. lia.
  - exact parabolic_five.
  - intros f x0 lo hi out X. inversion X. cbn. lia.
  - intros r J k cov cor X. inversion X. split; apply repeat_rect.
  - exists 0%nat, 6%nat. split; [lia|]. cbn. split; intros X; repeat (destruct X as [X|X]; [discriminate X|]); destruct X.
Qed.

Lemma seen_first s' : run (fit_zpoly plot_oracle (plot_args 3)) demo_fs = (Ok tt, s') ->
  file_tree s' /\ usable ["w"] s' /\ s' (numbered ["w"] "obs" 0 ++ ["plots"]) = Some Dir /\ forall other k, other <> "obs" \/ k <> 0%nat -> s' (numbered ["w"] other k) = None.
Proof.
  intros H. assert (E : s' = snd (run (fit_zpoly plot_oracle (plot_args 3)) demo_fs)) by (rewrite H; reflexivity).
  split; [rewrite E; apply run_wf, demo_tree|]. split.
  { split; [rewrite E; apply run_dirs; reflexivity|]. right. rewrite E. apply run_dirs. reflexivity. }
  destruct (fit_files _ _ _ _ demo_tree H (demo_free "obs" 3)) as (i & Hi & J1 & J2 & _ & _ & J3 & J4).
  assert (i = 0)%nat as -> by (destruct i; [reflexivity|]; exfalso; apply (J2 0%nat); [lia|apply demo_numbered]).
  change (fit_dir (plot_args 3)) with ["w"] in J3, J4. change (fa_name (plot_args 3)) with "obs" in J3, J4. split; [apply J3; [reflexivity|cbn; lia]|].
  intros other k Hk. assert (Ne : forall f, numbered ["w"] other k <> numbered ["w"] "obs" 0 ++ f).
  { intros f Ef. assert (f = []) as -> by (eapply app_length_nil; [|exact Ef]; rewrite !numbered_length; reflexivity). rewrite app_nil_r in Ef. apply numbered_inj in Ef. destruct Ef, Hk; congruence. }
  rewrite J4; [apply demo_numbered| | |].
  - intros [t Et]. assert (t = []) as -> by (eapply app_length_nil; [|exact Et]; rewrite !numbered_length; reflexivity). apply (Ne []). rewrite app_nil_r in *. congruence.
  - intros _ _. apply Ne.
  - intros f _. apply Ne.
Qed.

Lemma seen_pool s' N : run (fit_zpoly plot_oracle (plot_args 3)) demo_fs = (Ok tt, s') ->
  let fits := map (fun nm => (demo_oracle, demo_args nm N)) ["obs"; "abs"; "third"] in
  independent fits s' /\ forall f, In f fits -> free_number (snd f) s'.
Proof.
  intros H fits. destruct (seen_first s' H) as (T & Us & _ & No).
  destruct (demo_pool ["obs"; "abs"; "third"] N ltac:(repeat constructor; cbn; intuition discriminate)) as ((_ & _ & Sep) & _).
  split; [split; [exact T|split; [|exact Sep]]|].
  - intros i f E. unfold fits in E. rewrite nth_error_map in E. destruct (nth_error _ i) as [nm|]; [|discriminate E]. injection E as <-. cbn [snd]. split; [exact Us|]. split; [left; apply No; right; discriminate|]. intros X. discriminate X.
  - intros f If. apply in_map_iff in If as (nm & <- & _). cbn [snd]. exists 1%nat. split; [lia|]. apply No. right. discriminate.
Qed.

Lemma seen_all : exists s', run (fit_zpoly plot_oracle (plot_args 3)) demo_fs = (Ok tt, s') /\ s' (numbered ["w"] "obs" 0 ++ ["plots"]) <> None /\
  (exists r, fst (run (table_pyoof_out (fun _ => true) [numbered ["w"] "obs" 0] 3) s') = Ok (3%nat, [r])) /\
  (exists figs, fst (run (draw_fit_path flat_griddata plain_printers true (numbered ["w"] "obs" 0) 3 illum_parabolic demo_tel degrees_unit None false) s') = Ok figs /\ length figs = 5%nat) /\
  forall N, let fits := map (fun nm => (demo_oracle, demo_args nm N)) ["obs"; "abs"; "third"] in independent fits s' /\ forall f, In f fits -> free_number (snd f) s'.
Proof.
  destruct (plot_runs 3) as [s' E]. exists s'. split; [exact E|]. destruct (seen_first s' E) as (T & Us & Pl & No). split; [rewrite Pl; discriminate|].
  assert (Un : forall j f, s' (numbered ["w"] "obs" (S j) ++ f) = None) by (intros j f; apply (wf_under _ _ _ T), No; right; discriminate).
  split; [|split].
  - destruct (table_after_fit (fun _ => true) plot_oracle (plot_args 3) demo_fs s' default_config demo_tree E (demo_free "obs" 3) eq_refl eq_refl) as (j & _ & _ & X). cbv zeta in X.
    destruct (X 3%nat ltac:(cbn; lia)) as (r & rows & xy & ph & c0 & c1 & c2 & rest & R1 & _). change (fit_dir (plot_args 3)) with ["w"] in R1. change (fa_name (plot_args 3)) with "obs" in R1.
    assert (j = 0)%nat as ->. { destruct j; [reflexivity|]. exfalso. unfold table_pyoof_out in R1. cbn [table_rows] in R1. unfold table_row in R1.
      cbn [callE bindP run exec] in R1. rewrite (Un j) in R1. discriminate R1. }
    exists r. rewrite R1. reflexivity.
  - destruct (seen_figures s' E) as (j & _ & Hn & X). destruct (X 3%nat ltac:(lia)) as (figs & F1 & F2).
    assert (j = 0)%nat as ->.
    { destruct j; [reflexivity|]. exfalso. unfold draw_fit_path in F1. cbv zeta in F1. rewrite run_bind in F1. cbn [call run exec] in F1. rewrite (Un j) in F1. rewrite run_bind in F1.
      pose proof (only_run _ _ _ s' (makedirs_only (numbered ["w"] "obs" (S j) ++ ["plots"]) false)) as K.
      destruct (run (makedirs (numbered ["w"] "obs" (S j) ++ ["plots"]) false) s') as [[[]|e] s2]; [|discriminate F1]. cbn [snd] in K.
      assert (G : s2 (numbered ["w"] "obs" (S j) ++ [fitpar_name 3]) = None).
      { rewrite (K _ (fun f => f)); [apply Un|]. right. intros [t Et]. destruct t as [|c t]; [rewrite app_nil_r in Et; apply app_inv_head in Et; discriminate Et|].
        rewrite <- app_assoc in Et. apply app_inv_head in Et. discriminate Et. }
      rewrite run_bind in F1. unfold read_parfit in F1. rewrite run_bind in F1. cbn [callE run exec] in F1. rewrite G in F1. discriminate F1. }
    exists figs. split; [exact F1|exact F2].
  - intros N. apply seen_pool, E.
Qed.
