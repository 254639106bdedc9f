(** scripts/create_lookup.py. *)
From Coq Require Import String Ascii List Lia Lra.
From Flocq Require Import Core.Generic_fmt Core.Round_NE.
From Verif Require Import PyBase PyLib Num MMath MAperture MFs MOut MAct MTab MAux MPlot MActPlot MScript SMath SOut SFit SAct SAct2 STab SLookup PStr PFs PFit PAct PAct2 PAct3 PAct5 PAct7 PAct8 PTab.
Import ListNotations.
Open Scope R_scope.
Open Scope string_scope.
Open Scope list_scope.
Open Scope prog_scope.

(** ** Which rows are used *)
Lemma split_on_some c s : split_on c s <> [].
Proof. destruct s as [|a t]; cbn; [discriminate|]. destruct (Ascii.eqb a c); [discriminate|]. destruct (split_on c t); discriminate. Qed.
Lemma last_split_sep c p t : last (split_on c (p ^^ String c t)) "" = last (split_on c t) "".
Proof.
  destruct (split_on_prefix c p (String c t)) as (l & w & w' & l' & _ & E2 & ->). cbn in E2. rewrite Ascii.eqb_refl in E2. injection E2 as <- <-.
  assert (LA : forall (a b : list string), b <> [] -> last (a ++ b) "" = last b "").
  { clear. induction a as [|x a IH]; intros b Hb; [reflexivity|]. cbn [app]. specialize (IH b Hb). destruct (a ++ b) as [|y u] eqn:F; [apply app_eq_nil in F; destruct F; congruence|]. exact IH. }
  rewrite LA by discriminate. pose proof (split_on_some c t) as N. destruct (split_on c t); [congruence|reflexivity].
Qed.
Lemma last_sep_exists c s : ~ In c (chars s) \/ exists p t, s = p ^^ String c t /\ ~ In c (chars t).
Proof.
  induction s as [|a t IH]; [left; intros []|]. destruct IH as [IH|(p & u & -> & IH)].
  - destruct (Ascii.ascii_dec a c) as [->|N]; [right; exists "", t; auto|]. left. cbn. intros [E|E]; auto.
  - right. exists (String a p), u. auto.
Qed.
Lemma offset_iff name : is_offset name = true <-> name = "offset" \/ exists p, name = p ^^ "-offset".
Proof.
  unfold is_offset. rewrite String.eqb_eq. split.
  - intros H. destruct (last_sep_exists "-" name) as [N|(p & t & -> & N)].
    + rewrite (split_on_none _ _ N) in H. left. exact H.
    + rewrite last_split_sep, (split_on_none _ _ N) in H. cbn in H. subst t. right. exists p. reflexivity.
  - intros [->|[p ->]]; [reflexivity|]. change "-offset" with (String "-" "offset"). rewrite last_split_sep. reflexivity.
Qed.
Lemma selected_iff r : selected_row r = true <-> used r.
Proof.
  unfold selected_row, used. rewrite Bool.andb_true_iff, Bool.negb_true_iff, <- offset_iff. rewrite Bool.not_true_iff_false.
  assert (X : ngt (nth 1 (tr_snr r) NaN) (Fin 200) = true <-> above_200 (nth 1 (tr_snr r) NaN)).
  { unfold above_200. destruct (nth 1 (tr_snr r) NaN) as [x| | |].
    - unfold ngt, nlt. rewrite Rltb_true. split; [intros H; right; eauto|intros [H|(t & H & L)]; [discriminate|inversion H; subst; exact L]].
    - split; auto.
    - split; [discriminate|intros [H|(t & H & _)]; discriminate].
    - split; [discriminate|intros [H|(t & H & _)]; discriminate]. }
  rewrite X. tauto.
Qed.

(** ** Reading *)
Lemma run_read_parfit q s l s' : run (read_parfit q) s = (Ok l, s') -> s' = s /\ exists rows, s q = Some (File (Params rows)) /\ l = map parfit rows.
Proof.
  unfold read_parfit. rewrite run_read. destruct (s q) as [[|[]]|]; cbn; intros H; try discriminate H. inversion H; subst. split; [reflexivity|]. eexists. split; [reflexivity|apply parfit_eq].
Qed.
Lemma read_coeffs_inv base n N rows s Ks s' : run (read_coeffs base n N rows) s = (Ok Ks, s') -> s' = s /\ Forall2 (row_coeffs s base n N) rows Ks.
Proof.
  revert Ks s'. induction rows as [|r t IH]; intros Ks s' H; cbn [read_coeffs] in H; [inversion H; split; [reflexivity|constructor]|].
  apply run_bind_inv in H. destruct H as (l & s1 & H1 & H). apply run_read_parfit in H1. destruct H1 as (-> & prs & Es & ->).
  apply run_lift_inv in H. destruct H as (K & EK & H). apply run_bind_inv in H. destruct H as (Kt & s1 & H2 & H). apply IH in H2. destruct H2 as [-> F]. inversion H; subst.
  split; [reflexivity|]. constructor; [|exact F]. exists prs. split; [unfold fitpar_rows; rewrite <- app_assoc; exact Es|].
  unfold assign_row in EK. destruct (Nat.eqb_spec (length (skipn 5 (map parfit prs))) N) as [E|E]; [inversion EK; subst; left; auto|].
  right. destruct (skipn 5 (map parfit prs)) as [|x [|? ?]]; try discriminate EK. exists x. inversion EK. cbn in E. auto.
Qed.
Lemma read_coeffs_ok base n N rows Ks s : Forall2 (row_coeffs s base n N) rows Ks -> run (read_coeffs base n N rows) s = (Ok Ks, s).
Proof.
  intros F. induction F as [|r K t Kt (prs & Es & HK) F IH]; [reflexivity|]. cbn [read_coeffs]. unfold fitpar_rows in Es. rewrite <- app_assoc in Es.
  assert (Es' : s (base ++ [tr_name r ^^ "-000"; fitpar_name n]) = Some (File (Params prs))) by exact Es. clear Es.
  rewrite run_bind. unfold read_parfit at 1. rewrite run_read, Es'. cbn [run]. rewrite parfit_eq, run_lift_bind.
  assert (A : assign_row N (skipn 5 (map parfit prs)) = Ok K).
  { unfold assign_row. destruct HK as [[-> HL]|(x & Hn & Hx & ->)]; [rewrite HL, Nat.eqb_refl; reflexivity|]. destruct (Nat.eqb_spec (length (skipn 5 (map parfit prs))) N) as [E|E]; rewrite Hx in *; [cbn in E; congruence|reflexivity]. }
  rewrite A, run_bind, IH. reflexivity.
Qed.
Lemma row_coeffs_length s base n N r K : row_coeffs s base n N r K -> length K = N.
Proof. intros (rows & _ & [[_ H]|(x & _ & _ & ->)]); [exact H|apply repeat_length]. Qed.
Lemma run_read_text fname s : snd (run (read_text fname) s) = s.
Proof. unfold read_text. rewrite run_read. destruct (s fname) as [[|[]]|]; reflexivity. Qed.
Lemma init_state gd o fname s : snd (run (act_init gd o fname) s) = s.
Proof.
  unfold act_init, read_lookup_interp. rewrite run_bind, run_bind. destruct (run (read_text fname) s) as [[t|e] s1] eqn:E; pose proof (run_read_text fname s) as X; rewrite E in X; cbn in X; subst s1; [|reflexivity].
  rewrite run_lift. destruct (bind _ _); reflexivity.
Qed.

(** ** The displacements *)
Lemma at_actuators_of sp o phases T : (match itransform o (Map3 phases) with Map3 l => interp_surface2rings sp o l | Map2 _ => Err IndexError end) = Ok T ->
  at_actuators sp o phases T.
Proof.
  intros H. cbn [itransform on_maps] in H. split; [exact (interp_rect _ _ _ _ H)|]. intros j Hj. unfold interp_surface2rings in H.
  pose proof (mapM_nth _ _ _ 0%nat [] j H ltac:(rewrite seq_length; exact Hj)) as X. rewrite seq_nth in X by exact Hj. cbn [plus] in X.
  destruct (py_get (map _ phases) j) as [m|] eqn:Em; [|discriminate X]. cbn [bind] in X. destruct (sp _ _ (transpose m)) as [f|] eqn:Ef; [|discriminate X]. cbn [bind] in X. apply Ok_inj in X.
  apply (py_get_nth _ _ []) in Em. destruct Em as [Lm ->]. rewrite map_length in Lm. rewrite (nth_map_lt _ _ _ [] []) in Ef by exact Lm.
  eexists _, f. split; [reflexivity|]. split; [exact Ef|]. intros k Hk. unfold elem. rewrite <- X.
  rewrite (nth_map_lt _ _ _ (0, 0) NaN) by (rewrite combine_length, act_x_length, act_y_length; exact Hk). rewrite combine_nth by (rewrite act_x_length, act_y_length; reflexivity). reflexivity.
Qed.

(** ** The new table *)
Lemma read_plain_state fname s : snd (run (read_lookup_plain fname) s) = s.
Proof.
  unfold read_lookup_plain. rewrite run_bind. pose proof (run_read_text fname s) as X. destruct (run (read_text fname) s) as [[t|e] s1]; cbn in X; subst s1; [|reflexivity]. rewrite run_lift. reflexivity.
Qed.
Lemma pdfs_only M dir l : only M (fun q => exists f, In f l /\ q = dir ++ [f]) (write_pdfs dir l).
Proof.
  induction l as [|f t IH]; [exact I|]. cbn [write_pdfs]. apply only_bind.
  - apply write_file_only. exists f. split; [left; reflexivity|reflexivity].
  - intros _. eapply only_impl; [| |exact IH]; [auto|]. intros q (g & Hg & ->). exists g. split; [right; exact Hg|reflexivity].
Qed.
Lemma write_lookup_only M (W : path -> Prop) sp o f a : W f -> only M W (write_lookup sp o f a).
Proof.
  intros Hf. unfold write_lookup. apply only_bind; [apply only_lift|intros tb]. apply only_bind; [cbn; repeat split; auto; intros []; exact I|intros []].
  destruct (lookup_lines _ _ _) as [text r]. apply only_bind; [cbn; auto|intros []; apply only_lift].
Qed.
Definition written_names (k : lookup_oracles) : list string := lookup_name k :: lookup_figures k.
Lemma not_figure k : ~ In (lookup_name k) (lookup_figures k).
Proof. unfold lookup_name, lookup_figures. cbn. intros H. repeat (destruct H as [H|H]; [discriminate H|]). destruct H. Qed.

(** The steps of a run that ends. *)
Definition read_part (k : lookup_oracles) (o : actuator) (runs : list path) (base : path) (s : fs) (tab : nat * list tab_row) (rows : list tab_row) (Ks g : list (list R)) (phases : list (list (list num))) : Prop :=
  fst (run (table_pyoof_out (lk_isot k) runs (ac_order o)) s) = Ok tab /\ rows = filter selected_row (lk_sort k (snd tab)) /\ rows <> [] /\
  Forall2 (row_coeffs s base (ac_order o) (ac_N_K o)) rows Ks /\
  act_fit_grav (lk_solve k) o Ks (elevations rows) = Ok g /\
  generate_phase_pr o g (map Deg alpha_lookup) true = Ok phases.
Lemma plots_inv k o runs base old dir s figs s' : run (create_lookup_plots k o runs base old dir) s = (Ok figs, s') ->
  exists tab rows Ks g phases sd lk T s3 Km i0 i1,
    read_part k o runs base s tab rows Ks g phases /\
    keeps (fun q => is_prefix q dir) (fun _ => False) s sd /\
    fst (run (read_lookup_plain old) sd) = Ok lk /\ at_actuators (lk_spline k) o phases T /\
    run (write_lookup (lk_spline k) o (dir ++ [lookup_name k]) (Map2 (map2 (map2 nsub) (map2d Fin (snd lk)) T))) sd = (Ok tt, s3) /\
    run (write_pdfs dir (lookup_figures k)) s3 = (Ok tt, s') /\
    mapM (fun alpha => gen_coeffs o g (Deg alpha)) (alpha_list o rows) = Ok Km /\
    act_plot (lk_fmt k) o true phases (16, 11 / 2) (Some "Phase-error model") = Ok (lp_model figs) /\
    run (act_init (lk_griddata k) o old) s = (Ok i0, s) /\ plot_own (lk_fmt k) o i0 "Phase-error look-up table" = Ok (lp_lookup figs) /\
    run (act_init (lk_griddata k) o (dir ++ [lookup_name k])) s3 = (Ok i1, s3) /\
    plot_own (lk_fmt k) o i1 "Phase-error look-up table minus phase-error model (FEM + OOF corrections)" = Ok (lp_correction figs) /\
    gravfit o rows Ks Km = Ok (lp_gravfit figs).
Proof.
  intros H. unfold create_lookup_plots in H. apply run_bind_inv in H. destruct H as (i0 & s0 & H0 & H).
  assert (s0 = s) as -> by (rewrite <- (init_state (lk_griddata k) o old s), H0; reflexivity).
  apply run_bind_inv in H. destruct H as (tab & s0 & H1 & H).
  assert (s0 = s) as -> by (rewrite <- (table_unchanged (lk_isot k) runs (ac_order o) s), H1; reflexivity). cbv zeta in H.
  set (rows := filter selected_row (lk_sort k (snd tab))) in *.
  apply run_bind_inv in H. destruct H as (Ks & s0 & H2 & H). apply read_coeffs_inv in H2. destruct H2 as [-> F].
  apply run_lift_inv in H. destruct H as (g & Eg & H). fold (elevations rows) in Eg.
  apply run_bind_inv in H. destruct H as ([] & s0 & H3 & H). assert (X : rows <> [] /\ s0 = s) by (destruct rows; [discriminate H3|]; inversion H3; split; [discriminate|reflexivity]). destruct X as [Nr ->].
  apply run_lift_inv in H. destruct H as (Km & Ekm & H).
  apply run_lift_inv in H. destruct H as (phases & Ep & H).
  apply run_lift_inv in H. destruct H as (f1 & Ef1 & H).
  apply run_lift_inv in H. destruct H as (f2 & Ef2 & H).
  apply run_lift_inv in H. destruct H as (f4 & Ef4 & H).
  apply run_bind_inv in H. destruct H as (b & s0 & H4 & H). rewrite run_call in H4. cbn [exec fst snd] in H4.
  assert (s0 = s) as -> by (inversion H4; reflexivity).
  apply run_bind_inv in H. destruct H as ([] & sd & H5 & H).
  assert (Kd : keeps (fun q => is_prefix q dir) (fun _ => False) s sd).
  { destruct b; [inversion H5; apply keeps_refl|]. pose proof (only_run _ _ (makedirs dir true) s (makedirs_only dir true)) as O. rewrite H5 in O. exact O. }
  apply run_bind_inv in H. destruct H as (lk & s0 & H6 & H). assert (s0 = sd) as -> by (rewrite <- (read_plain_state old sd), H6; reflexivity).
  apply run_lift_inv in H. destruct H as (T & ET & H). apply at_actuators_of in ET.
  apply run_bind_inv in H. destruct H as ([] & s3 & H7 & H). apply run_bind_inv in H. destruct H as (i1 & s4 & H8 & H).
  assert (s4 = s3) as -> by (rewrite <- (init_state (lk_griddata k) o (dir ++ [lookup_name k]) s3), H8; reflexivity).
  apply run_lift_inv in H. destruct H as (f3 & Ef3 & H).
  apply run_bind_inv in H. destruct H as ([] & s4 & H9 & H). cbn [run] in H. inversion H; subst.
  exists tab, rows, Ks, g, phases, sd, lk, T, s3, Km, i0, i1. unfold read_part. rewrite H1, H6. cbn [lp_model lp_lookup lp_correction lp_gravfit].
  repeat first [assumption | reflexivity | split].
Qed.
Lemma create_plots k o runs base old dir s s' : run (create_lookup k o runs base old dir) s = (Ok tt, s') <-> exists figs, run (create_lookup_plots k o runs base old dir) s = (Ok figs, s').
Proof.
  unfold create_lookup. rewrite run_bind. destruct (run (create_lookup_plots k o runs base old dir) s) as [[f|e] s1]; cbn [run]; (split; [intros H|intros [f0 H]]); inversion H; subst; [exists f; reflexivity|reflexivity].
Qed.
Lemma create_inv k o runs base old dir s s' : run (create_lookup k o runs base old dir) s = (Ok tt, s') ->
  exists tab rows Ks g phases sd lk T s3,
    fst (run (table_pyoof_out (lk_isot k) runs (ac_order o)) s) = Ok tab /\ rows = filter selected_row (lk_sort k (snd tab)) /\ rows <> [] /\
    Forall2 (row_coeffs s base (ac_order o) (ac_N_K o)) rows Ks /\
    act_fit_grav (lk_solve k) o Ks (elevations rows) = Ok g /\
    generate_phase_pr o g (map Deg alpha_lookup) true = Ok phases /\
    keeps (fun q => is_prefix q dir) (fun _ => False) s sd /\
    fst (run (read_lookup_plain old) sd) = Ok lk /\ at_actuators (lk_spline k) o phases T /\
    run (write_lookup (lk_spline k) o (dir ++ [lookup_name k]) (Map2 (map2 (map2 nsub) (map2d Fin (snd lk)) T))) sd = (Ok tt, s3) /\
    run (write_pdfs dir (lookup_figures k)) s3 = (Ok tt, s').
Proof.
  intros H. apply create_plots in H. destruct H as [figs H]. apply plots_inv in H. destruct H as (tab & rows & Ks & g & phases & sd & lk & T & s3 & Km & i0 & i1 & (A1 & A2 & A3 & A4 & A5 & A6) & B1 & B2 & B3 & B4 & B5 & _).
  exists tab, rows, Ks, g, phases, sd, lk, T, s3. repeat (split; [assumption|]). exact B5.
Qed.
Lemma create_table k o runs base old dir s s' z : ac_min o <= ac_max o -> s old = Some (File (Text (table_text z))) ->
  run (create_lookup k o runs base old dir) s = (Ok tt, s') ->
  exists tab rows Ks g phases T z',
    fst (run (table_pyoof_out (lk_isot k) runs (ac_order o)) s) = Ok (ac_order o, tab) /\ rows = filter selected_row (lk_sort k tab) /\ rows <> [] /\
    Forall2 (row_coeffs s base (ac_order o) (ac_N_K o)) rows Ks /\
    act_fit_grav (lk_solve k) o Ks (elevations rows) = Ok g /\
    generate_phase_pr o g (map Deg alpha_lookup) true = Ok phases /\
    at_actuators (lk_spline k) o phases T /\
    s' (dir ++ [lookup_name k]) = Some (File (Text (table_text z'))) /\
    forall j a x, (j < 11)%nat -> (a < 96)%nat -> elem NaN T j a = Fin x -> rounded (Rmax (ac_min o) (Rmin (ac_max o) (IZR (z j a) - x))) (z' j a).
Proof.
  intros HL HO H. destruct (create_inv k o runs base old dir s s' H) as (tab & rows & Ks & g & phases & sd & lk & T & s3 & H1 & Er & Nr & F & Eg & Ep & Kd & H6 & HT & H7 & H8).
  assert (Ed : sd old = Some (File (Text (table_text z)))) by (rewrite <- HO; apply Kd; [auto|left; rewrite HO; discriminate]).
  rewrite (read_lookup_run old z sd Ed) in H6. cbn [fst] in H6. apply Ok_inj in H6. subst lk. cbn [snd] in H7.
  assert (En : fst tab = ac_order o).
  { unfold table_pyoof_out in H1. rewrite run_bind in H1. destruct (run (table_rows runs (ac_order o)) s) as [[rs|e] s9]; [|discriminate H1]. destruct (forallb _ rs); cbn in H1; inversion H1; reflexivity. }
  set (Z0 := map (fun j => map (fun k0 => IZR (z j k0)) (seq 0 96)) (seq 0 11)) in *.
  assert (RZ : rect 11 96 (map2d Fin Z0)).
  { apply rect_map2d. split; [unfold Z0; rewrite map_length, seq_length; reflexivity|]. apply Forall_forall. intros r Hr. unfold Z0 in Hr. apply in_map_iff in Hr. destruct Hr as (j & <- & _). rewrite map_length, seq_length. reflexivity. }
  pose proof (proj1 HT) as RT.
  set (M := map2 (map2 nsub) (map2d Fin Z0) T) in *. assert (RM : rect 11 96 M) by (apply map2_rect; assumption).
  apply (run_write_inv (lk_spline k) o _ (Map2 M) M sd s3 eq_refl RM HL) in H7. 
  exists (snd tab), rows, Ks, g, phases, T, (fun j k0 => np_int (between (ac_min o) (ac_max o) (elem NaN M j k0))).
  split; [rewrite H1, <- En; destruct tab; reflexivity|]. repeat (split; [assumption|]). split.
  - pose proof (only_run _ _ (write_pdfs dir (lookup_figures k)) s3 (pdfs_only (fun _ => False) dir (lookup_figures k))) as O. rewrite H8 in O. cbn [snd] in O.
    rewrite O; [subst s3; apply upd_same| |right; auto]. intros (f & Hf & E). apply app_inj_tail in E. destruct E as [_ E]. apply (not_figure k). rewrite E. exact Hf.
  - intros j a x Hj Ha Ex. unfold M. rewrite (map2_elem nsub NaN NaN NaN 11 96 _ _ j a RZ RT Hj Ha), Ex.
    assert (Ez : elem NaN (map2d Fin Z0) j a = Fin (IZR (z j a))).
    { assert (RZ0 : rect 11 96 Z0) by (split; [unfold Z0; rewrite map_length, seq_length; reflexivity|]; apply Forall_forall; intros r Hr; unfold Z0 in Hr; apply in_map_iff in Hr; destruct Hr as (j0 & <- & _); rewrite map_length, seq_length; reflexivity).
      rewrite (elem_map2d' Fin 0 NaN 11 96 Z0 j a RZ0 Hj Ha). f_equal. unfold elem, Z0. rewrite (nth_map_lt _ _ _ 0%nat []) by (rewrite seq_length; exact Hj). rewrite (nth_map_lt _ _ _ 0%nat 0) by (rewrite seq_length; exact Ha). rewrite !seq_nth by assumption. reflexivity. }
    rewrite Ez. cbn [nsub between np_int]. apply rounded_nearest.
Qed.

(** ** Nothing else is touched *)
Lemma create_only k o runs base old dir : only (fun q => is_prefix q dir) (fun q => exists f, In f (written_names k) /\ q = dir ++ [f]) (create_lookup k o runs base old dir).
Proof.
  set (M := fun q => is_prefix q dir). set (W := fun q => exists f, In f (written_names k) /\ q = dir ++ [f]).
  assert (CE : forall p, only M W (callE (Read p))) by (intros p; cbn; repeat split; intros []; exact I).
  assert (RT : forall f, only M W (read_text f)) by (intros f; unfold read_text; apply only_bind; [apply CE|intros []; exact I]).
  assert (RI : forall f, only M W (act_init (lk_griddata k) o f)) by (intros f; unfold act_init, read_lookup_interp; apply only_bind; [apply only_bind; [apply RT|intros; apply only_lift]|intros; exact I]).
  assert (RR : forall d n, only M W (table_row d n)).
  { intros d n. unfold table_row. repeat first [exact I | apply only_bind; [|intros ?] | apply only_lift | apply CE | match goal with |- only _ _ (match ?x with _ => _ end) => destruct x end | cbv zeta]. }
  assert (RS : forall l n, only M W (table_rows l n)).
  { induction l as [|d t IH]; intros n; [exact I|]. cbn [table_rows]. apply only_bind; [apply RR|intros r]. apply only_bind; [apply IH|intros; exact I]. }
  assert (RC : forall n N rows, only M W (read_coeffs base n N rows)).
  { intros n N rows. induction rows as [|r t IH]; [exact I|]. cbn [read_coeffs]. apply only_bind; [unfold read_parfit; apply only_bind; [apply CE|intros []; exact I]|intros l]. apply only_bind; [apply only_lift|intros K]. apply only_bind; [exact IH|intros; exact I]. }
  unfold create_lookup. apply only_bind; [|intros; exact I]. unfold create_lookup_plots. apply only_bind; [apply RI|intros i0]. apply only_bind; [unfold table_pyoof_out; apply only_bind; [apply RS|intros rs; destruct (forallb _ rs); exact I]|intros tab]. cbv zeta.
  apply only_bind; [apply RC|intros Ks]. apply only_bind; [apply only_lift|intros g]. apply only_bind; [destruct (filter _ _); exact I|intros []]. do 5 (apply only_bind; [apply only_lift|intros ?]).
  apply only_bind; [cbn; repeat split; auto|intros b]. apply only_bind; [destruct b; [exact I|]; eapply only_impl; [| |exact (makedirs_only dir true)]; [auto|intros q []]|intros []].
  apply only_bind; [unfold read_lookup_plain; apply only_bind; [apply RT|intros; apply only_lift]|intros lk]. apply only_bind; [apply only_lift|intros T]. apply only_bind; [|intros []; apply only_bind; [apply RI|intros i1]; apply only_bind; [apply only_lift|intros f3]; apply only_bind; [|intros; exact I]].
  - apply write_lookup_only. exists (lookup_name k). split; [left; reflexivity|reflexivity].
  - eapply only_impl; [| |exact (pdfs_only M dir (lookup_figures k))]; [auto|]. intros q (f & Hf & ->). exists f. split; [right; exact Hf|reflexivity].
Qed.

(** The four figures are there when the script has ended. *)
Lemma pdfs_written d l s s' f : run (write_pdfs d l) s = (Ok tt, s') -> In f l -> s' (d ++ [f]) = Some (File Pdf).
Proof.
  revert s. induction l as [|g l IH]; intros s H Hf; [destruct Hf|]. cbn [write_pdfs] in H. apply run_bind_inv in H. destruct H as ([] & s1 & H1 & H2).
  destruct (in_dec string_dec f l) as [Hi|Hi]; [apply (IH s1 H2 Hi)|]. destruct Hf as [->|Hf]; [|contradiction].
  pose proof (only_run _ _ (write_pdfs d l) s1 (pdfs_only (fun _ => False) d l)) as O. rewrite H2 in O. cbn [snd] in O.
  rewrite O; [|intros (h & Hh & E); apply app_inj_tail in E; destruct E as [_ <-]; contradiction|right; auto].
  apply run_write_ok in H1. subst s1. apply upd_same.
Qed.
Lemma files_written k o runs base old dir s s' z : ac_min o <= ac_max o -> s old = Some (File (Text (table_text z))) ->
  run (create_lookup k o runs base old dir) s = (Ok tt, s') ->
  NoDup (lookup_files (lk_today k)) /\ (exists z', s' (dir ++ [hd "" (lookup_files (lk_today k))]) = Some (File (Text (table_text z')))) /\
  forall f, In f (tl (lookup_files (lk_today k))) -> s' (dir ++ [f]) = Some (File Pdf).
Proof.
  intros HL HO H. split.
  - unfold lookup_files. repeat constructor; cbn; intros X; repeat (destruct X as [X|X]; [discriminate X|]); destruct X.
  - split; [destruct (create_table k o runs base old dir s s' z HL HO H) as (tab & rows & Ks & g & ph & T & z' & _ & _ & _ & _ & _ & _ & _ & E & _); exists z'; exact E|].
    intros f Hf. destruct (create_inv k o runs base old dir s s' H) as (tab & rows & Ks & g & phases & sd & lk & T & s3 & _ & _ & _ & _ & _ & _ & _ & _ & _ & _ & H8).
    apply (pdfs_written dir (lookup_figures k) s3 s' f H8 Hf).
Qed.
