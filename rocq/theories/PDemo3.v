(** A run whose third order raises (for the examples of C90, C91). *)
From Coq Require Import String Ascii List Lia.
From Verif Require Import PyBase Num MZernike MAperture MRad MCore MFs MOut SOut SOrder SFit PFs PStr PFit PFit2 PFit3 PCrash PCrash2 PDemo.
Import ListNotations.
Open Scope R_scope.
Open Scope string_scope.
Open Scope list_scope.
Open Scope prog_scope.

Definition no_third : oracle := {| or_lsq := or_lsq demo_oracle; or_comat := or_comat demo_oracle; or_griddata := or_griddata demo_oracle; or_round2 := or_round2 demo_oracle;
  or_draw := fun n => if Nat.eqb n 3 then Err ValueError else or_draw demo_oracle n |}.
Lemma no_third_order a c snrs d n : n <> 3%nat -> fit_order no_third a c snrs d n = fit_order demo_oracle a c snrs d n.
Proof.
  intros H. assert (E : or_draw no_third n = or_draw demo_oracle n) by (cbn [or_draw no_third]; destruct (Nat.eqb_spec n 3); [contradiction|reflexivity]).
  unfold fit_order, plot_fit_path. cbv zeta. rewrite E. reflexivity.
Qed.
Lemma no_third_orders a c snrs d l : ~ In 3%nat l -> fit_orders no_third a c snrs d l = fit_orders demo_oracle a c snrs d l.
Proof.
  induction l as [|n t IH]; intros H; [reflexivity|]. cbn [fit_orders]. rewrite IH by (intros X; apply H; right; exact X). rewrite no_third_order by (intros ->; apply H; left; reflexivity). reflexivity.
Qed.
Lemma no_third_two name s : run (fit_zpoly no_third (demo_args name 2)) s = run (fit_zpoly demo_oracle (demo_args name 2)) s.
Proof.
  unfold fit_zpoly. cbv zeta. cbn [fa_order_max demo_args seq]. change (snr_values no_third (demo_args name 2)) with (snr_values demo_oracle (demo_args name 2)).
  rewrite !run_bind. destruct (run (load_config _) s) as [[c|e] s1]; [|reflexivity]. rewrite !run_bind. destruct (run (pick_dir _ _) s1) as [[d|e] s2]; [|reflexivity].
  rewrite !run_bind, !run_lift. destruct (snr_values _ _) as [snrs|e]; [|reflexivity]. rewrite no_third_orders; [reflexivity|]. cbn. intuition discriminate.
Qed.
Lemma third_raises name s s' : run (fit_zpoly no_third (demo_args name 3)) s <> (Ok tt, s').
Proof.
  intros H. unfold fit_zpoly in H. cbv zeta in H. apply run_bind_inv in H. destruct H as (c & s1 & _ & H). apply run_bind_inv in H. destruct H as (d & s2 & _ & H).
  apply run_lift_inv in H. destruct H as (snrs & _ & H). cbn [fa_order_max demo_args seq fit_orders] in H.
  apply run_bind_inv in H. destruct H as (? & s3 & _ & H). apply run_bind_inv in H. destruct H as (? & s4 & _ & H). apply run_bind_inv in H. destruct H as (? & s5 & H & _).
  unfold fit_order in H. cbv zeta in H. apply run_bind_inv in H. destruct H as (init & s6 & _ & H). do 11 (apply run_lift_inv in H; destruct H as (? & _ & H)).
  do 3 (apply run_bind_inv in H; destruct H as (? & ? & _ & H)). cbn [fa_make_plots demo_args] in H. unfold plot_fit_path in H. cbv zeta in H.
  do 3 (apply run_bind_inv in H; destruct H as (? & ? & _ & H)). apply run_lift_inv in H. destruct H as (? & E & _). discriminate E.
Qed.
Lemma third_missing : exists s1 e s2, run (fit_zpoly no_third (with_orders (demo_args "obs" 3) 2)) demo_fs = (Ok tt, s1) /\
  run (fit_zpoly no_third (with_orders (demo_args "obs" 3) (2 + 1))) demo_fs = (Err e, s2).
Proof.
  destruct (demo_runs "obs" 2) as [s1 R]. exists s1. change (with_orders (demo_args "obs" 3) 2) with (demo_args "obs" 2). change (with_orders (demo_args "obs" 3) (2 + 1)) with (demo_args "obs" 3).
  destruct (run (fit_zpoly no_third (demo_args "obs" 3)) demo_fs) as [[[]|e] s2] eqn:E; [exfalso; exact (third_raises _ _ _ E)|]. exists e, s2. split; [rewrite no_third_two; exact R|reflexivity].
Qed.
