(** What a finished fit_zpoly run has written. *)
From Coq Require Import String Ascii List FunctionalExtensionality.
From Verif Require Import PyBase Num MZernike MMath MAperture MRad MCore MFs MOut PFs PStr.
Import ListNotations.
Open Scope R_scope.
Open Scope string_scope.
Open Scope list_scope.
Open Scope prog_scope.

Lemma run_bind_inv {A B} (p : prog A) (f : A -> prog B) s b s' :
  run (bindP p f) s = (Ok b, s') -> exists a s1, run p s = (Ok a, s1) /\ run (f a) s1 = (Ok b, s').
Proof. rewrite run_bind. destruct (run p s) as [[a|e] s1]; [eauto|discriminate]. Qed.
Lemma run_lift_inv {A B} (r : res A) (f : A -> prog B) s b s' :
  run (bindP (lift r) f) s = (Ok b, s') -> exists a, r = Ok a /\ run (f a) s = (Ok b, s').
Proof. destruct r as [a|e]; simpl; [eauto|discriminate]. Qed.

(** ** The individual writers *)
Definition under (d : path) (w : path * node) : path * node := (d ++ fst w, snd w).
Definition csv_writes (name : string) (l : list (string * string * arr)) : list (path * node) :=
  map (fun '(fname, header, data) => ([fname], File (Csv (header ^^ " " ^^ name) data))) l.
Lemma run_save_all name d l s s' :
  run (save_all name d l) s = (Ok tt, s') -> s' = apply_writes s (map (under d) (csv_writes name l)).
Proof.
  revert s. induction l as [|[[f h] x] t IH]; intros s H; cbn [save_all] in H.
  - simpl in H. inversion H. reflexivity.
  - apply run_bind_inv in H. destruct H as ([] & s1 & H1 & H2). apply run_write_ok in H1. subst s1.
    simpl. apply IH in H2. exact H2.
Qed.
Definition csv_rows (order : nat) (l : list arr) : list (string * string * arr) :=
  let all := combine (combine (csv_names order) csv_headers) l in
  if Nat.eqb order 1 then all
  else combine (combine (skipn 3 (csv_names order)) (skipn 3 csv_headers)) (skipn 3 l).
Lemma run_store_csv name d n l s s' :
  run (store_data_csv name d n l) s = (Ok tt, s') -> s' = apply_writes s (map (under d) (csv_writes name (csv_rows n l))).
Proof. apply run_save_all. Qed.

Lemma run_store_ascii d n sol init s s' :
  run (store_data_ascii d n sol init) s = (Ok tt, s') ->
  length sol = (5 + length (ln_list n))%nat /\ length init = length sol /\
  s' = upd s (d ++ [fitpar_name n]) (File (Params (zip3 (param_names n) sol init))).
Proof.
  intros H. apply run_lift_inv in H. destruct H as (tab & H1 & H2). apply run_write_ok in H2.
  unfold make_table in H1. destruct (Nat.eqb _ _ && Nat.eqb _ _) eqn:E; [|discriminate].
  apply andb_true_iff in E. destruct E as [E1 E2]. apply Nat.eqb_eq in E1, E2.
  assert (L : length (param_names n) = (5 + length (ln_list n))%nat).
  { unfold param_names. rewrite app_length, map_length. reflexivity. }
  inversion H1; subst. repeat split; congruence.
Qed.

Lemma run_read_all d l s s' : run (read_all d l) s = (Ok tt, s') -> s' = s.
Proof.
  revert s. induction l as [|f t IH]; intros s H; simpl in H; [inversion H; reflexivity|].
  destruct (s (d ++ [f])) as [[|x]|]; simpl in H; try discriminate. apply IH, H.
Qed.
Lemma run_write_pdfs d l s s' :
  run (write_pdfs d l) s = (Ok tt, s') -> s' = apply_writes s (map (fun f => (d ++ [f], File Pdf)) l).
Proof.
  revert s. induction l as [|f t IH]; intros s H; [simpl in H; inversion H; reflexivity|].
  cbn [write_pdfs] in H. apply run_bind_inv in H. destruct H as ([] & s1 & H1 & H2). apply run_write_ok in H1.
  subst s1. apply IH in H2. exact H2.
Qed.

Definition plot_writes (n : nat) : list (path * node) :=
  (["plots"], Dir) :: map (fun f => (["plots"; f], File Pdf)) (pdf_names n).
Lemma upd_id s p n : s p = Some n -> upd s p n = s.
Proof. intros H. apply functional_extensionality; intros q. unfold upd. destruct (path_eq_dec q p); congruence. Qed.
Lemma run_plot orc d n s s' :
  s d = Some Dir -> s (d ++ ["plots"]) = None \/ s (d ++ ["plots"]) = Some Dir ->
  run (plot_fit_path orc d n) s = (Ok tt, s') -> s' = apply_writes s (map (under d) (plot_writes n)).
Proof.
  intros Hd Hp H. unfold plot_fit_path in H. rewrite run_bind, run_call in H. cbn [exec fst snd] in H.
  rewrite run_bind in H.
  match type of H with context [if ?b then _ else _] => set (bb := b) in H end.
  assert (E : run (if bb then Ret tt else makedirs (d ++ ["plots"]) false) s
              = (Ok tt, upd s (d ++ ["plots"]) Dir)).
  { unfold bb. destruct Hp as [Hp|Hp]; rewrite Hp.
    - apply run_makedirs_new; assumption.
    - simpl. rewrite upd_id by exact Hp. reflexivity. }
  rewrite E in H.
  apply run_bind_inv in H. destruct H as ([] & s1 & H1 & H). apply run_read_all in H1. subst s1.
  apply run_lift_inv in H. destruct H as ([] & _ & H). apply run_write_pdfs in H. rewrite H.
  unfold plot_writes. cbn [map]. rewrite map_map. unfold under at 1. cbn [apply_writes fst snd]. f_equal.
  apply map_ext. intros f. unfold under. cbn [fst snd]. rewrite <- app_assoc. reflexivity.
Qed.

(** ** One order *)
Record fitted := {
  ft_init : list R; ft_x0 : list R; ft_lo : list R; ft_hi : list R; ft_out : lsq_out; ft_sol : list R;
  ft_res : list (list R); ft_cov : list (list R); ft_cor : list (list R); ft_phase : list (list R) }.

Definition info_of (a : fit_args) (snrs : list num) : run_info := {|
  ri_tel_name := fa_tel_name a; ri_tel_opd := fa_opd_name a; ri_pr := tel_pr (fa_tel a); ri_name := fa_name a;
  ri_object := fa_object a; ri_date := fa_date a; ri_d_z := fa_d_z a; ri_wavel := fa_wavel a; ri_freq := fa_freq a;
  ri_illum := fa_illum_name a; ri_meanel := fa_meanel a; ri_resolution := fa_resolution a;
  ri_box_factor := fa_box_factor a; ri_snr := snrs |}.

Definition objective (a : fit_args) (c : config) (n : nat) (p : list R) : res (list R) :=
  residual (fa_illum a) (fa_tel a) (cf_fixed c) (cf_excluded c) (n_coeff n) p (fa_beam a) (fa_u a) (fa_v a)
    (fa_d_z a) (fa_wavel a) (fa_resolution a) (fa_box_factor a).

Definition fitted_ok (orc : oracle) (a : fit_args) (c : config) (n : nat) (f : fitted) : Prop :=
  np_delete (ft_init f) (cf_excluded c) = Ok (ft_x0 f) /\
  np_delete (cf_bound_min c ++ repeat (-5)%R (n_coeff n - 3)) (cf_excluded c) = Ok (ft_lo f) /\
  np_delete (cf_bound_max c ++ repeat 5%R (n_coeff n - 3)) (cf_excluded c) = Ok (ft_hi f) /\
  or_lsq orc (objective a c n) (ft_x0 f) (ft_lo f) (ft_hi f) = Ok (ft_out f) /\
  params_complete (cf_fixed c) (cf_excluded c) (n_coeff n) (lo_x (ft_out f)) = Ok (ft_sol f) /\
  reshape3 (lo_fun (ft_out f)) = Ok (ft_res f) /\
  (exists cc idx, or_comat orc (lo_fun (ft_out f)) (lo_jac (ft_out f)) (length (ft_x0 f)) = Ok cc /\
     np_delete (map INR (seq 0 (n_coeff n + 5))) (cf_excluded c) = Ok idx /\
     vstack idx (fst cc) = Ok (ft_cov f) /\ vstack idx (snd cc) = Ok (ft_cor f)) /\
  (exists xy, phase (skipn 5 (ft_sol f)) (tel_pr (fa_tel a)) false false 1000 = Ok (xy, ft_phase f)) /\
  length (ft_sol f) = (5 + length (ln_list n))%nat /\ length (ft_init f) = length (ft_sol f).

Definition order_data (a : fit_args) (f : fitted) : list arr :=
  [A2 (fa_beam a); nums2 (fa_u a); nums2 (fa_v a); nums2 (ft_res f); nums2 (lo_jac (ft_out f));
   A1 (nums (lo_grad (ft_out f))); nums2 (ft_phase f); nums2 (ft_cov f); nums2 (ft_cor f)].

Definition order_writes (a : fit_args) (snrs : list num) (n : nat) (f : fitted) : list (path * node) :=
  ([fitpar_name n], File (Params (zip3 (param_names n) (ft_sol f) (ft_init f))))
  :: (if Nat.eqb n 1 then [(["pyoof_info.yml"], File (Info (info_of a snrs)))] else [])
  ++ csv_writes (fa_name a) (csv_rows n (order_data a f))
  ++ (if fa_make_plots a then plot_writes n else []).

(** Writes into distinct single names leave the plots entry alone. *)
Definition plain_names (n : nat) : list string := fitpar_name n :: "pyoof_info.yml" :: csv_names n.
Lemma plots_not_plain n : ~ In "plots" (plain_names n).
Proof.
  unfold plain_names, csv_names, fitpar_name. simpl. intros H.
  repeat (destruct H as [H|H]; [discriminate H|]). exact H.
Qed.
Lemma csv_rows_in n l f h x : In (f, h, x) (csv_rows n l) -> In f (csv_names n).
Proof.
  unfold csv_rows. destruct (Nat.eqb n 1); intros H; apply in_combine_l, in_combine_l in H; auto.
  rewrite <- (firstn_skipn 3 (csv_names n)). apply in_or_app. right. exact H.
Qed.
Lemma csv_writes_in name n l q : In q (map fst (csv_writes name (csv_rows n l))) -> exists f, q = [f] /\ In f (csv_names n).
Proof.
  unfold csv_writes. rewrite map_map. intros H. apply in_map_iff in H. destruct H as ([[f h] x] & E & H).
  apply csv_rows_in in H. eauto.
Qed.

Lemma run_start_params_state c fp d n s init s1 : run (start_params c fp d n) s = (Ok init, s1) -> s1 = s.
Proof.
  unfold start_params. destruct (fp && negb (Nat.eqb n 1)).
  - unfold read_parfit. cbn. destruct (s _) as [[|[]]|]; simpl; intros H; inversion H; reflexivity.
  - simpl. intros H. inversion H. reflexivity.
Qed.

Lemma fit_order_post orc a c snrs d n s s' :
  s d = Some Dir -> s (d ++ ["plots"]) = None \/ s (d ++ ["plots"]) = Some Dir ->
  run (fit_order orc a c snrs d n) s = (Ok tt, s') ->
  exists f, run (start_params c (fa_fit_previous a) d n) s = (Ok (ft_init f), s) /\ fitted_ok orc a c n f /\
    s' = apply_writes s (map (under d) (order_writes a snrs n f)).
Proof.
  intros Hd Hp H. unfold fit_order in H. cbv zeta in H.
  apply run_bind_inv in H. destruct H as (init & s1 & H1 & H). assert (s1 = s) by (eapply run_start_params_state; eauto). subst s1.
  apply run_lift_inv in H. destruct H as (x0 & E1 & H).
  apply run_lift_inv in H. destruct H as (lo & E2 & H).
  apply run_lift_inv in H. destruct H as (hi & E3 & H).
  apply run_lift_inv in H. destruct H as (out & E4 & H).
  apply run_lift_inv in H. destruct H as (sol & E5 & H).
  apply run_lift_inv in H. destruct H as (rr & E6 & H).
  apply run_lift_inv in H. destruct H as (cc & E7 & H).
  apply run_lift_inv in H. destruct H as (idx & E8 & H).
  apply run_lift_inv in H. destruct H as (cov & E9 & H).
  apply run_lift_inv in H. destruct H as (cor & E10 & H).
  apply run_lift_inv in H. destruct H as ([xy phi] & E11 & H).
  apply run_bind_inv in H. destruct H as ([] & s1 & H2 & H).
  apply run_store_ascii in H2. destruct H2 as (L1 & L2 & ->).
  apply run_bind_inv in H. destruct H as ([] & s2 & H3 & H).
  apply run_bind_inv in H. destruct H as ([] & s3 & H4 & H5).
  set (f := {| ft_init := init; ft_x0 := x0; ft_lo := lo; ft_hi := hi; ft_out := out; ft_sol := sol;
               ft_res := rr; ft_cov := cov; ft_cor := cor; ft_phase := phi |}).
  exists f. split; [exact H1|]. split.
  { unfold fitted_ok. simpl. repeat match goal with |- _ /\ _ => split end; auto; eauto 8. }
  assert (E3' : s2 = apply_writes (upd s (d ++ [fitpar_name n]) (File (Params (zip3 (param_names n) sol init))))
            (map (under d) (if Nat.eqb n 1 then [(["pyoof_info.yml"], File (Info (info_of a snrs)))] else []))).
  { destruct (Nat.eqb n 1).
    - apply run_write_ok in H3. exact H3.
    - simpl in H3. inversion H3. reflexivity. }
  apply run_store_csv in H4.
  assert (E4' : s3 = apply_writes s (map (under d) (([fitpar_name n], File (Params (zip3 (param_names n) sol init)))
     :: (if Nat.eqb n 1 then [(["pyoof_info.yml"], File (Info (info_of a snrs)))] else [])
     ++ csv_writes (fa_name a) (csv_rows n (order_data a f))))).
  { rewrite H4, E3'. simpl. rewrite map_app, apply_writes_app. reflexivity. }
  assert (Hpl : forall q, q = d \/ q = d ++ ["plots"] -> s3 q = s q).
  { intros q Hq. rewrite E4'. apply apply_writes_other. rewrite map_map. intros Hin.
    apply in_map_iff in Hin. destruct Hin as ([r nd] & Er & Hin). simpl in Er.
    assert (exists g, r = [g] /\ In g (plain_names n)) as (g & -> & Hg).
    { destruct Hin as [E|Hin].
      - inversion E. exists (fitpar_name n). split; [reflexivity|left; reflexivity].
      - apply in_app_or in Hin. destruct Hin as [Hin|Hin].
        + destruct (Nat.eqb n 1); [|destruct Hin]. destruct Hin as [E|[]]. inversion E.
          exists "pyoof_info.yml". split; [reflexivity|right; left; reflexivity].
        + assert (X : In r (map fst (csv_writes (fa_name a) (csv_rows n (order_data a f))))).
          { apply in_map_iff. exists (r, nd). auto. }
          apply csv_writes_in in X. destruct X as (g & -> & Hg). exists g. split; [reflexivity|right; right; exact Hg]. }
    destruct Hq as [-> | ->].
    - apply (f_equal (@length _)) in Er. rewrite app_length in Er. simpl in Er. lia.
    - apply app_inv_head in Er. inversion Er; subst. apply plots_not_plain in Hg. exact Hg. }
  unfold order_writes. fold f. destruct (fa_make_plots a).
  - apply run_plot in H5.
    + rewrite H5, E4'. rewrite <- apply_writes_app, <- map_app. f_equal. f_equal. simpl. rewrite <- app_assoc. reflexivity.
    + rewrite Hpl; auto.
    + rewrite Hpl; auto.
  - simpl in H5. inversion H5; subst s'. rewrite E4', !app_nil_r. reflexivity.
Qed.
