(** The programs of the package and of the scripts report every failed call. *)
From Coq Require Import String List FunctionalExtensionality.
From Verif Require Import PyBase Num MZernike MMath MAperture MRad MCore MFs MOut MAux MSim MTab MAct MPlot MActPlot MScript MFault PFs PFault.
Import ListNotations.
Open Scope prog_scope.

Ltac tame_step :=
  first
  [ match goal with |- tame (Ret _) => exact I | |- tame (Raise _) => exact I end
  | apply tame_lift | apply tame_read | apply tame_exists | apply tame_isdir | apply tame_write | apply tame_makedirs
  | assumption
  | match goal with |- tame (bindP _ _) => apply tame_bind; [|intros ?] end
  | match goal with |- tame (let '(_, _) := ?x in _) => destruct x end
  | match goal with |- tame (if ?x then _ else _) => destruct x end
  | match goal with |- tame (match ?x with _ => _ end) => destruct x end ].
Ltac tame_auto := cbv zeta; repeat tame_step.

Lemma tame_load f : tame (load_config f).
Proof. unfold load_config. tame_auto. Qed.
Lemma tame_choose base name js last : tame (choose_dir base name js last).
Proof. revert last. induction js as [|j t IH]; intros last; cbn [choose_dir]; tame_auto. apply IH. Qed.
Lemma tame_pick w name : tame (pick_dir w name).
Proof. unfold pick_dir. tame_auto. apply tame_choose. Qed.
Lemma tame_save name d l : tame (save_all name d l).
Proof. induction l as [|[[f h] a] t IH]; cbn [save_all]; tame_auto. Qed.
Lemma tame_read_all d l : tame (read_all d l).
Proof. induction l as [|f t IH]; cbn [read_all]; tame_auto. Qed.
Lemma tame_pdfs d l : tame (write_pdfs d l).
Proof. induction l as [|f t IH]; cbn [write_pdfs]; tame_auto. Qed.
Lemma tame_plot orc d n : tame (plot_fit_path orc d n).
Proof. unfold plot_fit_path. cbv zeta. tame_auto; [apply tame_read_all|apply tame_pdfs]. Qed.
Lemma tame_parfit p : tame (read_parfit p).
Proof. unfold read_parfit. tame_auto. Qed.
Lemma tame_start c fp d n : tame (start_params c fp d n).
Proof. unfold start_params. tame_auto. apply tame_parfit. Qed.
Lemma tame_order orc a c snrs d n : tame (fit_order orc a c snrs d n).
Proof.
  unfold fit_order. cbv zeta. apply tame_bind; [apply tame_start|intros ?]. do 11 (apply tame_bind; [apply tame_lift|intros ?]).
  apply tame_bind; [unfold store_data_ascii; tame_auto|intros ?]. apply tame_bind; [tame_auto|intros ?].
  apply tame_bind; [apply tame_save|intros ?]. destruct (fa_make_plots a); [apply tame_plot|exact I].
Qed.
Lemma tame_orders orc a c snrs d l : tame (fit_orders orc a c snrs d l).
Proof. induction l as [|n t IH]; cbn [fit_orders]; [exact I|]. apply tame_bind; [apply tame_order|intros ?; exact IH]. Qed.
Lemma tame_fit orc a : tame (fit_zpoly orc a).
Proof.
  unfold fit_zpoly. cbv zeta. apply tame_bind; [apply tame_load|intros ?]. apply tame_bind; [apply tame_pick|intros ?].
  apply tame_bind; [apply tame_lift|intros ?]. apply tame_orders.
Qed.

Lemma tame_each {A} (f : A -> prog unit) l : (forall x, tame (f x)) -> tame (each f l).
Proof. intros H. induction l as [|x t IH]; cbn [each]; [exact I|]. apply tame_bind; [apply H|intros ?; exact IH]. Qed.
Lemma tame_open p : tame (open_fits p).
Proof. unfold open_fits. tame_auto. Qed.
Lemma tame_extract cwd p : tame (extract_data_pyoof cwd p).
Proof. unfold extract_data_pyoof. destruct (negb _); [exact I|]. apply tame_bind; [apply tame_open|intros ?]. cbv zeta. destruct (negb _); [exact I|]. tame_auto. Qed.
Lemma tame_extract_effelsberg cwd p : tame (extract_data_effelsberg cwd p).
Proof. unfold extract_data_effelsberg. destruct (negb _); [exact I|]. cbv zeta. apply tame_bind; [apply tame_open|intros ?]. tame_auto. Qed.
Lemma tame_batch orc sc cwd files : tame (batch orc sc cwd files).
Proof.
  apply tame_each. intros f. apply tame_bind; [apply tame_extract_effelsberg|intros ob]. apply tame_each. intros su.
  apply tame_bind; [apply tame_lift|intros ?]. apply tame_fit.
Qed.
Lemma tame_sim_store orc a tables js : tame (sim_store orc a tables js).
Proof. induction js as [|j t IH]; cbn [sim_store]; unfold writeto; tame_auto. Qed.
Lemma tame_sim orc a : tame (simulate_data_pyoof orc a).
Proof. unfold simulate_data_pyoof. tame_auto. apply tame_sim_store. Qed.
Lemma tame_sim_script orc gd fmt a : tame (simulate_script orc gd fmt a).
Proof. unfold simulate_script. apply tame_bind; [apply tame_sim|intros ?]. apply tame_bind; [apply tame_extract|intros ?]. tame_auto. Qed.
Lemma tame_row d n : tame (table_row d n).
Proof. unfold table_row. tame_auto. Qed.
Lemma tame_rows ds n : tame (table_rows ds n).
Proof. induction ds as [|d t IH]; cbn [table_rows]; [exact I|]. apply tame_bind; [apply tame_row|intros ?]. tame_auto. Qed.
Lemma tame_table isot ds n : tame (table_pyoof_out isot ds n).
Proof. unfold table_pyoof_out. apply tame_bind; [apply tame_rows|intros ?]. tame_auto. Qed.
Lemma tame_text p : tame (read_text p).
Proof. unfold read_text. tame_auto. Qed.
Lemma tame_plain p : tame (read_lookup_plain p).
Proof. unfold read_lookup_plain. apply tame_bind; [apply tame_text|intros ?; apply tame_lift]. Qed.
Lemma tame_interp gd o p : tame (read_lookup_interp gd o p).
Proof. unfold read_lookup_interp. apply tame_bind; [apply tame_text|intros ?; apply tame_lift]. Qed.
Lemma tame_init gd o p : tame (act_init gd o p).
Proof. unfold act_init. apply tame_bind; [apply tame_interp|intros ?; exact I]. Qed.
Lemma tame_write_lookup sp o p a : tame (write_lookup sp o p a).
Proof.
  unfold write_lookup. apply tame_bind; [apply tame_lift|intros ?]. apply tame_bind; [split; [reflexivity|intros x; apply tame_lift]|intros ?].
  destruct (lookup_lines _ _ _) as [text r]. apply tame_bind; [split; [exact I|intros x; exact I]|intros ?]. apply tame_lift.
Qed.
Lemma tame_coeffs base n N rows : tame (read_coeffs base n N rows).
Proof. induction rows as [|r t IH]; cbn [read_coeffs]; [exact I|]. apply tame_bind; [apply tame_parfit|intros ?]. tame_auto. Qed.
Lemma tame_create_plots k o runs base old dir : tame (create_lookup_plots k o runs base old dir).
Proof.
  unfold create_lookup_plots. apply tame_bind; [apply tame_init|intros ?]. apply tame_bind; [apply tame_table|intros ?]. cbv zeta.
  apply tame_bind; [apply tame_coeffs|intros ?]. apply tame_bind; [apply tame_lift|intros ?]. apply tame_bind; [tame_auto|intros ?].
  do 5 (apply tame_bind; [apply tame_lift|intros ?]). apply tame_bind; [apply tame_isdir|intros ?]. apply tame_bind; [tame_auto|intros ?].
  apply tame_bind; [apply tame_plain|intros ?]. apply tame_bind; [apply tame_lift|intros ?]. apply tame_bind; [apply tame_write_lookup|intros ?].
  apply tame_bind; [apply tame_init|intros ?]. apply tame_bind; [apply tame_lift|intros ?]. apply tame_bind; [apply tame_pdfs|intros ?]. exact I.
Qed.
Lemma tame_create k o runs base old dir : tame (create_lookup k o runs base old dir).
Proof. unfold create_lookup. apply tame_bind; [apply tame_create_plots|intros ?; exact I]. Qed.
Lemma tame_matrix p : tame (read_matrix p).
Proof. unfold read_matrix. tame_auto. Qed.
Lemma tame_info p : tame (read_info p).
Proof. unfold read_info. tame_auto. Qed.
Lemma tame_draw gd pt strict d n illum tel g plim save : tame (draw_fit_path gd pt strict d n illum tel g plim save).
Proof.
  unfold draw_fit_path. cbv zeta. apply tame_bind; [apply tame_exists|intros ?]. apply tame_bind; [tame_auto|intros ?].
  apply tame_bind; [apply tame_parfit|intros ?]. apply tame_bind; [apply tame_info|intros ?]. do 6 (apply tame_bind; [apply tame_matrix|intros ?]).
  apply tame_bind; [apply tame_lift|intros ?]. apply tame_bind; [destruct save; [apply tame_pdfs|exact I]|intros ?; exact I].
Qed.
