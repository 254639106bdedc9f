(** Proofs about the figures of plot_routines.py: plot_phase and plot_fit_path. *)
From Coq Require Import String Ascii List Lia Lra.
From Verif Require Import PyBase PyLib Num MZernike MMath MAperture MRad MCore MFs MAct MAux MOut MPlot SZernike SMath SAct SOut SFit SPlot
  PNorm PAct PPhase PRad PFs PFit PFit6 PFit7 PFit9 PAper PTab PPlot PPlot2 PPlot3.
From Coquelicot Require Import Complex.
Import ListNotations.
Open Scope R_scope.
Open Scope string_scope.
Open Scope list_scope.

Lemma phase_bar_label piston tilt : phase_bar piston tilt = phase_label piston tilt.
Proof. destruct piston, tilt; reflexivity. Qed.

Lemma rect_of (m : list (list R)) n : length m = n -> (forall j, (j < n)%nat -> length (nth j m []) = n) -> SAct.rect n n m.
Proof.
  intros L H. split; [exact L|]. apply Forall_forall. intros row Hr. apply (In_nth _ _ []) in Hr. destruct Hr as (j & Hj & <-). apply H. lia.
Qed.

Lemma phase_panel K pr piston tilt n res_ title : (2 * length K = (n + 1) * (n + 2))%nat -> (1 <= n)%nat -> 0 < pr -> (2 <= res_)%nat ->
  exists phi pn, phase K pr piston tilt res_ = Ok (linspace (- pr) pr res_, linspace (- pr) pr res_, phi) /\
    bind (phase K pr piston tilt res_) (fun '(x, y, ph) => phase_figure (phase_bar piston tilt) title pr x y (fins ph)) =
      Ok {| fg_size := (6, 5.8); fg_title := ""; fg_panels := [pn] |} /\
    portrays pn (linspace (- pr) pr res_) (linspace (- pr) pr res_) (fun r c => Fin (nth c (nth r phi []) 0)) /\
    pn_title pn = title /\ pn_bar pn = phase_label piston tilt /\ pn_xlabel pn = "$x$ m" /\ pn_ylabel pn = "$y$ m" /\
    im_x0 (pn_image pn) = - pr /\ im_x1 (pn_image pn) = pr /\ im_y0 (pn_image pn) = - pr /\ im_y1 (pn_image pn) = pr /\
    (exists ct, pn_contour pn = Some ct /\ ct_levels ct = map Fin [-2; -1.5; -1; -0.5; 0; 0.5; 1; 1.5; 2]) /\
    forall j i, (j < res_)%nat -> (i < res_)%nat ->
     let x := nth i (linspace (- pr) pr res_) 0 in
     let y := nth j (linspace (- pr) pr res_) 0 in
     (pr ^ 2 < x ^ 2 + y ^ 2 -> nth i (nth j phi []) 0 = 0) /\
     (x ^ 2 + y ^ 2 <= pr ^ 2 -> forall rho theta, 0 <= rho -> x = pr * (rho * cos theta) -> y = pr * (rho * sin theta) ->
        nth i (nth j phi []) 0 = 2 * PI * zernike_series n (kept piston tilt (coeff_of K)) rho theta).
Proof.
  intros HK Hn Hpr Hr. destruct (phase_ok K pr piston tilt res_ n HK Hn Hpr) as (phi & E & L & H).
  assert (RP : SAct.rect res_ res_ phi) by (apply rect_of; [exact L|intros j Hj; apply H; exact Hj]).
  assert (AF : array_of (fins phi) res_ res_ (fun r c => Fin (nth c (nth r phi []) 0))) by (apply (array_of_map2d Fin), (array_of_elem 0), RP).
  destruct (phase_figure_spec (phase_bar piston tilt) title pr res_ (fins phi) Hpr Hr (proj1 AF)) as (pn & F & P & T1 & T2 & T3 & T4 & T5 & T6 & T7 & T8 & T9).
  exists phi, pn. split; [exact E|]. split; [rewrite E; cbn [bind]; exact F|]. split.
  - destruct P as ((ct & C1 & C2 & C3 & C4) & P2 & P3 & P4).
    assert (LS : length (linspace (- pr) pr res_) = res_) by (unfold linspace; now rewrite map_length, seq_length).
    assert (EE : forall r c, (r < res_)%nat -> (c < res_)%nat -> elem NaN (fins phi) r c = Fin (nth c (nth r phi []) 0)).
    { intros r c Hr' Hc. unfold elem. apply nth_error_nth. apply AF; assumption. }
    split; [|split; [|split]].
    + exists ct. split; [exact C1|]. split; [exact C2|]. split; [exact C3|]. eapply array_of_ext; [|exact C4]. rewrite LS. exact EE.
    + eapply array_of_ext; [|exact P2]. rewrite LS. intros r c A B. cbn beta. rewrite EE by assumption. reflexivity.
    + exact P3.
    + exact P4.
  - rewrite <- phase_bar_label. split; [exact T1|]. split; [exact T2|]. split; [exact T3|]. split; [exact T4|]. split; [exact T5|]. split; [exact T6|].
    split; [exact T7|]. split; [exact T8|]. split; [exact T9|]. intros j i Hj Hi. apply H; assumption.
Qed.
Lemma plot_phase_spec K pr piston tilt n title : (2 * length K = (n + 1) * (n + 2))%nat -> (1 <= n)%nat -> 0 < pr ->
  exists phi pn, phase K pr piston tilt 1000 = Ok (linspace (- pr) pr 1000, linspace (- pr) pr 1000, phi) /\
    plot_phase K pr piston tilt title = Ok {| fg_size := (6, 5.8); fg_title := ""; fg_panels := [pn] |} /\
    portrays pn (linspace (- pr) pr 1000) (linspace (- pr) pr 1000) (fun r c => Fin (nth c (nth r phi []) 0)) /\
    pn_title pn = title /\ pn_bar pn = phase_label piston tilt /\ pn_xlabel pn = "$x$ m" /\ pn_ylabel pn = "$y$ m" /\
    im_x0 (pn_image pn) = - pr /\ im_x1 (pn_image pn) = pr /\ im_y0 (pn_image pn) = - pr /\ im_y1 (pn_image pn) = pr /\
    (exists ct, pn_contour pn = Some ct /\ ct_levels ct = map Fin [-2; -1.5; -1; -0.5; 0; 0.5; 1; 1.5; 2]) /\
    forall j i, (j < 1000)%nat -> (i < 1000)%nat ->
     let x := nth i (linspace (- pr) pr 1000) 0 in
     let y := nth j (linspace (- pr) pr 1000) 0 in
     (pr ^ 2 < x ^ 2 + y ^ 2 -> nth i (nth j phi []) 0 = 0) /\
     (x ^ 2 + y ^ 2 <= pr ^ 2 -> forall rho theta, 0 <= rho -> x = pr * (rho * cos theta) -> y = pr * (rho * sin theta) ->
        nth i (nth j phi []) 0 = 2 * PI * zernike_series n (kept piston tilt (coeff_of K)) rho theta).
Proof.
  intros HK Hn Hpr. unfold plot_phase. assert (H2 : (2 <= 1000)%nat) by (apply Nat.leb_le; reflexivity).
  revert H2. generalize 1000%nat. intros N H2. exact (phase_panel K pr piston tilt n N title HK Hn Hpr H2).
Qed.

(** ** plot_fit_path *)
Lemma py_get_some {A} (l : list A) i x : py_get l i = Ok x <-> nth_error l i = Some x.
Proof. unfold py_get. destruct (nth_error l i); split; congruence. Qed.
Lemma bind_ok {A B} (r : res A) (f : A -> res B) y : bind r f = Ok y <-> exists x, r = Ok x /\ f x = Ok y.
Proof. destruct r; cbn [bind]; split; [eauto|intros (x & E & H); congruence|discriminate|intros (x & E & _); discriminate]. Qed.

Lemma reals_fins (m : list (list R)) : reals (map (map Fin) m) = m.
Proof. unfold reals, map2d. rewrite map_map. erewrite map_ext; [apply map_id|]. intros l. cbn beta. rewrite map_map. cbn. apply map_id. Qed.

Lemma fit_figures_iff gd pt strict illum tel g plim n params i beam res_n u v cov corr figs :
  fit_figures gd pt strict illum tel g plim n params i beam res_n (map (map Fin) u) (map (map Fin) v) cov corr = Ok figs <->
  figures_of gd pt strict illum tel g plim n params i beam res_n u v cov corr figs.
Proof.
  unfold fit_figures, figures_of. cbv zeta. rewrite !reals_fins. split.
  - intros H. apply bind_ok in H. destruct H as (fd & H0 & H). apply bind_ok in H. destruct H as (fb & H1 & H). apply bind_ok in H. destruct H as (d2 & H2 & H).
    apply bind_ok in H. destruct H as (fp & H3 & H). apply bind_ok in H. destruct H as (fr & H4 & H). apply bind_ok in H. destruct H as (fc & H5 & H).
    apply bind_ok in H. destruct H as (fo & H6 & H). inversion H; subst figs. apply py_get_some in H2.
    destruct (Nat.eqb_spec n 1) as [E1|E1].
    + apply bind_ok in H0. destruct H0 as (f & H0 & E). inversion E; subst fd. exists f, fb, fp, fr, fc, fo, d2. auto 10.
    + inversion H0; subst fd. exists fb, fb, fp, fr, fc, fo, d2. split; [reflexivity|]. split; [intros; contradiction|]. auto 10.
  - intros (f & fb & fp & fr & fc & fo & d2 & -> & H0 & H1 & H2 & H3 & H4 & H5 & H6).
    apply bind_ok. exists (if Nat.eqb n 1 then [f] else []). split.
    { destruct (Nat.eqb_spec n 1) as [E|E]; [|reflexivity]. rewrite (H0 E). reflexivity. }
    rewrite H1. cbn [bind]. rewrite (proj2 (py_get_some _ _ _) H2). cbn [bind]. rewrite H3. cbn [bind]. rewrite H4. cbn [bind]. rewrite H5. cbn [bind]. rewrite H6. reflexivity.
Qed.

Lemma run_read_matrix {A} p h m (k : list (list num) -> prog A) s : s p = Some (File (Csv h (A2 m))) ->
  run (bindP (read_matrix p) k) s = if (Nat.leb 2 (length m) && Nat.leb 2 (ncols m))%bool then run (k m) s else (Err TypeError, s).
Proof.
  intros E. unfold read_matrix. rewrite run_bind, run_bind, run_callE. cbn [exec fst snd]. rewrite E.
  destruct (Nat.leb 2 (length m) && Nat.leb 2 (ncols m))%bool; reflexivity.
Qed.
Lemma run_read_info {A} p i (k : run_info -> prog A) s : s p = Some (File (Info i)) -> run (bindP (read_info p) k) s = run (k i) s.
Proof. intros E. unfold read_info. rewrite run_bind, run_bind, run_callE. cbn [exec fst snd]. rewrite E. reflexivity. Qed.
Lemma run_read_parfit {A} p rows (k : list R -> prog A) s : s p = Some (File (Params rows)) -> run (bindP (read_parfit p) k) s = run (k (map parfit rows)) s.
Proof. intros E. unfold read_parfit. rewrite run_bind, run_bind, run_callE. cbn [exec fst snd]. rewrite E. rewrite <- parfit_eq. reflexivity. Qed.

Lemma plots_child d f : (d ++ ["plots"]) ++ [f] = d ++ ["plots"; f].
Proof. now rewrite <- app_assoc. Qed.

Section Draw.
Variables (gd : list R -> list R -> list num -> list R -> list R -> list (list num)) (pt : printers) (strict : bool).
Variables (d : path) (n : nat) (illum : list R -> R -> res (R -> R -> R)) (tel : telgeo) (g : angle_unit) (plim : option (R * R * (R * R))) (save : bool).

Definition after_plots : prog (list figure) :=
  let f x := (d ++ [x])%list in
  (params <- read_parfit (f (fitpar_name n)) ;;
  i <- read_info (f "pyoof_info.yml") ;;
  beam <- read_matrix (f "beam_data.csv") ;;
  res_n <- read_matrix (f ("res_n" ^^ dec n ^^ ".csv")) ;;
  u <- read_matrix (f "u_data.csv") ;;
  v <- read_matrix (f "v_data.csv") ;;
  cov <- read_matrix (f ("cov_n" ^^ dec n ^^ ".csv")) ;;
  corr <- read_matrix (f ("corr_n" ^^ dec n ^^ ".csv")) ;;
  figs <- lift (fit_figures gd pt strict illum tel g plim n params i beam res_n u v cov corr) ;;
  (if save then write_pdfs (d ++ ["plots"]) (pdf_names n) else Ret tt) ;;;
  Ret figs)%prog.

Lemma draw_start s : plain_dir s d ->
  run (draw_fit_path gd pt strict d n illum tel g plim save) s = run after_plots (upd s (d ++ ["plots"]) Dir).
Proof.
  intros (Hd & Hp & _). unfold draw_fit_path. cbv zeta. rewrite run_bind, run_call. cbn [exec fst snd]. rewrite run_bind.
  match goal with |- context [if ?b then Ret tt else makedirs _ _] => set (bb := b) end.
  assert (E : run (if bb then Ret tt else makedirs (d ++ ["plots"]) false) s = (Ok tt, upd s (d ++ ["plots"]) Dir)).
  { unfold bb. destruct Hp as [Hp|Hp]; rewrite Hp.
    - apply run_makedirs_new; assumption.
    - simpl. rewrite upd_id by exact Hp. reflexivity. }
  rewrite E. reflexivity.
Qed.

Lemma stored_upd s rows i beam res_n u v cov corr : stored_run s d n rows i beam res_n u v cov corr ->
  stored_run (upd s (d ++ ["plots"]) Dir) d n rows i beam res_n u v cov corr.
Proof.
  assert (O : forall f nd, f <> "plots" -> s (d ++ [f]) = Some nd -> upd s (d ++ ["plots"]) Dir (d ++ [f]) = Some nd).
  { intros f nd Hf E. rewrite upd_other; [exact E|]. intros X. apply app_inv_head in X. congruence. }
  intros (H1 & H2 & (h3 & H3) & (h4 & H4) & (h5 & H5) & (h6 & H6) & (h7 & H7) & (h8 & H8)).
  assert (ND : forall x y, String.append (String x "") y <> "plots" \/ True) by auto.
  repeat split.
  - apply O; [discriminate|exact H1].
  - apply O; [discriminate|exact H2].
  - exists h3. apply O; [discriminate|exact H3].
  - exists h4. apply O; [discriminate|exact H4].
  - exists h5. apply O; [discriminate|exact H5].
  - exists h6. apply O; [discriminate|exact H6].
  - exists h7. apply O; [discriminate|exact H7].
  - exists h8. apply O; [discriminate|exact H8].
Qed.

Lemma leb2 {A} (m : list (list A)) : matrix2 m -> (Nat.leb 2 (length m) && Nat.leb 2 (ncols m))%bool = true.
Proof. intros [H1 H2]. apply andb_true_iff. split; apply Nat.leb_le; assumption. Qed.
Lemma leb2_inv {A} (m : list (list A)) : (Nat.leb 2 (length m) && Nat.leb 2 (ncols m))%bool = true -> matrix2 m.
Proof. intros H. apply andb_true_iff in H. destruct H as [H1 H2]. split; apply Nat.leb_le; assumption. Qed.

Lemma after_stored s rows i beam res_n u v cov corr : stored_run s d n rows i beam res_n u v cov corr ->
  matrix2 beam -> matrix2 res_n -> matrix2 u -> matrix2 v -> matrix2 cov -> matrix2 corr ->
  run after_plots s = run (bindP (lift (fit_figures gd pt strict illum tel g plim n (map parfit rows) i beam res_n (map (map Fin) u) (map (map Fin) v) cov corr))
     (fun figs => bindP (if save then write_pdfs (d ++ ["plots"]) (pdf_names n) else Ret tt) (fun _ => Ret figs))) s.
Proof.
  intros (H1 & H2 & (h3 & H3) & (h4 & H4) & (h5 & H5) & (h6 & H6) & (h7 & H7) & (h8 & H8)) B1 B2 B3 B4 B5 B6.
  assert (MF : forall m : list (list R), matrix2 m -> matrix2 (map (map Fin) m)).
  { intros m [X Y]. split; [now rewrite map_length|]. destruct m; [exact Y|]. cbn in *. now rewrite map_length. }
  unfold after_plots. cbv zeta.
  rewrite (run_read_parfit _ rows) by exact H1. rewrite (run_read_info _ i) by exact H2.
  rewrite (run_read_matrix _ h3 beam), (leb2 _ B1) by exact H3. rewrite (run_read_matrix _ h4 res_n), (leb2 _ B2) by exact H4.
  rewrite (run_read_matrix _ h5 (map (map Fin) u)), (leb2 _ (MF _ B3)) by exact H5. rewrite (run_read_matrix _ h6 (map (map Fin) v)), (leb2 _ (MF _ B4)) by exact H6.
  rewrite (run_read_matrix _ h7 cov), (leb2 _ B5) by exact H7. rewrite (run_read_matrix _ h8 corr), (leb2 _ B6) by exact H8.
  reflexivity.
Qed.

Lemma after_not_matrix s rows i beam res_n u v cov corr : stored_run s d n rows i beam res_n u v cov corr ->
  ~ matrix2 cov \/ ~ matrix2 corr -> exists e, run after_plots s = (Err e, s).
Proof.
  intros (H1 & H2 & (h3 & H3) & (h4 & H4) & (h5 & H5) & (h6 & H6) & (h7 & H7) & (h8 & H8)) N.
  unfold after_plots. cbv zeta.
  rewrite (run_read_parfit _ rows) by exact H1. rewrite (run_read_info _ i) by exact H2.
  rewrite (run_read_matrix _ h3 beam) by exact H3. destruct (_ && _)%bool; [|eauto].
  rewrite (run_read_matrix _ h4 res_n) by exact H4. destruct (_ && _)%bool; [|eauto].
  rewrite (run_read_matrix _ h5 (map (map Fin) u)) by exact H5. destruct (_ && _)%bool; [|eauto].
  rewrite (run_read_matrix _ h6 (map (map Fin) v)) by exact H6. destruct (_ && _)%bool; [|eauto].
  rewrite (run_read_matrix _ h7 cov) by exact H7. destruct (Nat.leb 2 (length cov) && Nat.leb 2 (ncols cov))%bool eqn:E1; [|eauto].
  rewrite (run_read_matrix _ h8 corr) by exact H8. destruct (Nat.leb 2 (length corr) && Nat.leb 2 (ncols corr))%bool eqn:E2; [|eauto].
  apply leb2_inv in E1. apply leb2_inv in E2. tauto.
Qed.

(** The pdf files are written last and only if the figures were drawn. *)
Lemma draw_end s fr : inv d s -> s (d ++ ["plots"]) = Some Dir ->
  exists s', run (bindP (lift fr) (fun figs : list figure => bindP (if save then write_pdfs (d ++ ["plots"]) (pdf_names n) else Ret tt) (fun _ => Ret figs))) s = (fr, s') /\
    s' = match fr with Ok _ => if save then apply_writes s (map (fun f => ((d ++ ["plots"]) ++ [f], File Pdf)) (pdf_names n)) else s | Err _ => s end.
Proof.
  intros Hi Hp. rewrite run_lift_bind. destruct fr as [figs|e]; [|exists s; split; reflexivity]. destruct save; [|exists s; split; reflexivity].
  destruct (inv_write_pdfs d (pdf_names n) s Hi Hp) as [s' E]. rewrite run_bind, E. exists s'. split; [reflexivity|]. apply run_write_pdfs in E. exact E.
Qed.

Lemma upd_plots_inv s : inv d s -> inv d (upd s (d ++ ["plots"]) Dir).
Proof. apply inv_upd_plots. Qed.

Lemma draw_spec s rows i beam res_n u v cov corr : plain_dir s d -> stored_run s d n rows i beam res_n u v cov corr ->
  matrix2 beam -> matrix2 res_n -> matrix2 u -> matrix2 v -> matrix2 cov -> matrix2 corr ->
  let out := run (draw_fit_path gd pt strict d n illum tel g plim save) s in
  (forall figs, fst out = Ok figs <-> figures_of gd pt strict illum tel g plim n (map parfit rows) i beam res_n u v cov corr figs) /\
  (forall figs, fst out = Ok figs -> forall q, snd out q =
     if path_eq_dec q (d ++ ["plots"]) then Some Dir
     else if in_dec path_eq_dec q (if save then map (fun f => d ++ ["plots"; f]) (pdf_names n) else []) then Some (File Pdf) else s q) /\
  (forall q, ~ below (d ++ ["plots"]) q -> snd out q = s q).
Proof.
  intros Hd Hs B1 B2 B3 B4 B5 B6 out. unfold out. rewrite (draw_start s Hd).
  rewrite (after_stored _ _ _ _ _ _ _ _ _ (stored_upd _ _ _ _ _ _ _ _ _ Hs) B1 B2 B3 B4 B5 B6).
  set (fr := fit_figures _ _ _ _ _ _ _ _ _ _ _ _ _ _ _ _).
  destruct (draw_end (upd s (d ++ ["plots"]) Dir) fr (upd_plots_inv s Hd) (upd_same _ _ _)) as (s' & E & Es). rewrite E. cbn [fst snd].
  assert (W : forall q, ~ below (d ++ ["plots"]) q -> ~ In q (map fst (map (fun f => ((d ++ ["plots"]) ++ [f], File Pdf)) (pdf_names n)))).
  { intros q Hq Hin. rewrite map_map in Hin. apply in_map_iff in Hin. destruct Hin as (f & <- & _). apply Hq. exists [f]. reflexivity. }
  assert (U : forall q, ~ below (d ++ ["plots"]) q -> upd s (d ++ ["plots"]) Dir q = s q).
  { intros q Hq. apply upd_other. intros ->. apply Hq. exists []. now rewrite app_nil_r. }
  split; [|split].
  - intros figs. apply fit_figures_iff.
  - intros figs Ef q. rewrite Es, Ef. destruct save.
    + destruct (path_eq_dec q (d ++ ["plots"])) as [->|Nq].
      * rewrite apply_writes_other; [apply upd_same|]. intros Hin. rewrite map_map in Hin. apply in_map_iff in Hin. destruct Hin as (f & X & _). cbn in X.
        apply (f_equal (@length _)) in X. rewrite !app_length in X. cbn in X. lia.
      * destruct (in_dec path_eq_dec q (map (fun f => d ++ ["plots"; f]) (pdf_names n))) as [Hin|Hin].
        -- apply apply_writes_in; [apply in_map_iff; apply in_map_iff in Hin; destruct Hin as (f & <- & Hf); exists f; rewrite plots_child; auto|].
           intros m Hm. apply in_map_iff in Hm. destruct Hm as (f & X & _). inversion X. reflexivity.
        -- rewrite apply_writes_other; [apply upd_other, Nq|]. intros Y. apply Hin. rewrite map_map in Y. apply in_map_iff in Y. destruct Y as (f & <- & Hf).
           apply in_map_iff. exists f. cbn [fst]. rewrite plots_child. auto.
    + destruct (in_dec path_eq_dec q []) as [[]|_]. unfold upd. destruct (path_eq_dec q (d ++ ["plots"])); reflexivity.
  - intros q Hq. rewrite Es. destruct fr; [|apply U, Hq]. destruct save; [|apply U, Hq]. rewrite apply_writes_other; [apply U, Hq|apply W, Hq].
Qed.

Lemma read_matrix_same p s : snd (run (read_matrix p) s) = s.
Proof. unfold read_matrix. rewrite run_bind, run_callE. cbn [exec fst snd]. destruct (s p) as [[|dc]|]; try reflexivity. destruct dc; try reflexivity. match goal with |- context [match ?m with A1 _ => _ | _ => _ end] => destruct m; try reflexivity end. destruct (_ && _)%bool; reflexivity. Qed.
Lemma same_bind {A B} (x : prog A) (k : A -> prog B) s : snd (run x s) = s -> (forall y, run x s = (Ok y, s) -> True) ->
  (exists e, run (bindP x k) s = (Err e, s)) \/ exists y, run (bindP x k) s = run (k y) s.
Proof. intros H _. rewrite run_bind. destruct (run x s) as [[y|e] s1]; cbn [snd] in H; subst s1; eauto. Qed.

Lemma draw_confined s q : plain_dir s d -> ~ below (d ++ ["plots"]) q -> snd (run after_plots (upd s (d ++ ["plots"]) Dir)) q = s q.
Proof.
  intros Hd Hq. assert (U : upd s (d ++ ["plots"]) Dir q = s q).
  { apply upd_other. intros ->. apply Hq. exists []. now rewrite app_nil_r. }
  set (s1 := upd s (d ++ ["plots"]) Dir) in *. unfold after_plots. cbv zeta.
  assert (RP : forall p, snd (run (read_parfit p) s1) = s1).
  { intros p. unfold read_parfit. rewrite run_bind, run_callE. cbn [exec fst snd]. destruct (s1 p) as [[|dc]|]; try reflexivity. destruct dc; reflexivity. }
  assert (RI : forall p, snd (run (read_info p) s1) = s1).
  { intros p. unfold read_info. rewrite run_bind, run_callE. cbn [exec fst snd]. destruct (s1 p) as [[|dc]|]; try reflexivity. destruct dc; reflexivity. }
  match goal with |- context [run (bindP ?x ?k) s1] => destruct (same_bind x k s1 (RP _) (fun _ _ => I)) as [(e & ->)|(y1 & ->)]; [exact U|] end.
  match goal with |- context [run (bindP ?x ?k) s1] => destruct (same_bind x k s1 (RI _) (fun _ _ => I)) as [(e & ->)|(y2 & ->)]; [exact U|] end.
  do 6 (match goal with |- context [run (bindP ?x ?k) s1] => let y := fresh "m" in destruct (same_bind x k s1 (read_matrix_same _ _) (fun _ _ => I)) as [(e & ->)|(y & ->)]; [exact U|] end).
  set (fr := fit_figures _ _ _ _ _ _ _ _ _ _ _ _ _ _ _ _).
  destruct (draw_end s1 fr (upd_plots_inv s Hd) (upd_same _ _ _)) as (s2 & E & Es). rewrite E. cbn [snd]. rewrite Es. destruct fr; [|exact U]. destruct save; [|exact U].
  rewrite apply_writes_other; [exact U|]. intros Hin. rewrite map_map in Hin. apply in_map_iff in Hin. destruct Hin as (f & <- & _). apply Hq. exists [f]. reflexivity.
Qed.

Lemma draw_single s rows i beam res_n u v cov corr : plain_dir s d -> stored_run s d n rows i beam res_n u v cov corr ->
  ~ matrix2 cov \/ ~ matrix2 corr -> exists e, run (draw_fit_path gd pt strict d n illum tel g plim save) s = (Err e, upd s (d ++ ["plots"]) Dir).
Proof.
  intros Hd Hs N. rewrite (draw_start s Hd). exact (after_not_matrix _ _ _ _ _ _ _ _ _ (stored_upd _ _ _ _ _ _ _ _ _ Hs) N).
Qed.
End Draw.

(** ** Statements of the property file *)
Lemma matrix_figure strict n idx m p cb title : (0 < p)%nat -> length idx = p -> SAct.rect p p m -> Forall (fun q => (q < 5 + n_coeff n)%nat) idx ->
  exists pn, plot_variance strict (map Fin (map INR idx) :: m) n true cb title = Ok {| fg_size := (6.4, 4.8); fg_title := ""; fg_panels := [pn] |} /\
    pn_title pn = title /\ pn_bar pn = cb /\ length (pn_xticks pn) = p /\ length (pn_yticks pn) = p /\
    forall a b, (a < p)%nat -> (b < p)%nat -> exists xa na yb nb,
      nth_error (pn_xticks pn) a = Some (xa, na) /\ names_parameter (nth a idx 0%nat) na /\
      nth_error (pn_yticks pn) (p - 1 - b) = Some (yb, nb) /\ names_parameter (nth b idx 0%nat) nb /\
      forall v, shows (pn_image pn) xa yb v <-> v = if Nat.leb a b then Some (elem NaN m a b) else None.
Proof.
  intros Hp Hl Hm HF. destruct (plot_variance_diag strict n idx m p cb title Hp Hl Hm HF) as (vmin & vmax & pn & _ & _ & E & T1 & T2 & _ & L1 & L2 & X & Y & S).
  exists pn. split; [exact E|]. split; [exact T1|]. split; [exact T2|]. split; [exact L1|]. split; [exact L2|]. intros a b Ha Hb.
  assert (HN : forall k, (k < p)%nat -> (nth k idx 0 < 5 + n_coeff n)%nat) by (intros k Hk; rewrite Forall_forall in HF; apply HF, nth_In; lia).
  assert (BB : (p - 1 - (p - 1 - b) = b)%nat) by lia.
  eexists _, _, _, _. split; [apply X, Ha|]. split; [apply label_names_nth, HN, Ha|]. split; [apply Y; lia|]. rewrite BB. split; [apply label_names_nth, HN, Hb|].
  intros v. rewrite S by lia. rewrite BB. reflexivity.
Qed.
Lemma np_extent w lo hi : np_min (map Fin w) = Ok lo -> np_max (map Fin w) = Ok hi -> exists a b, lo = Fin a /\ hi = Fin b /\ extent_of (fun t => In t w) a b.
Proof.
  intros E1 E2. destruct w as [|x w']; [discriminate E1|]. set (w := x :: w') in *.
  destruct (arr_min_ok w) as [a Ea]; [discriminate|]. destruct (arr_max_ok w) as [b Eb]; [discriminate|].
  pose proof (arr_min_max_ext _ _ _ Ea Eb) as X. destruct (norm_by_scaled w a b x X (or_introl eq_refl)) as (N1 & N2 & _).
  exists a, b. split; [congruence|]. split; [congruence|exact X].
Qed.
Lemma matrix_scale strict n idx m p cb title : (0 < p)%nat -> length idx = p -> SAct.rect p p m -> Forall (fun q => (q < 5 + n_coeff n)%nat) idx ->
  exists pn vmin vmax, plot_variance strict (map Fin (map INR idx) :: m) n true cb title = Ok {| fg_size := (6.4, 4.8); fg_title := ""; fg_panels := [pn] |} /\
    im_scale (pn_image pn) = Some (vmin, vmax) /\
    forall w, concat m = map Fin w -> exists lo hi, vmin = Fin lo /\ vmax = Fin hi /\ extent_of (fun t => In t w) lo hi.
Proof.
  intros Hp Hl Hm HF. destruct (plot_variance_diag strict n idx m p cb title Hp Hl Hm HF) as (vmin & vmax & pn & E1 & E2 & E & _ & _ & S & _).
  exists pn, vmin, vmax. split; [exact E|]. split; [exact S|]. intros w Ew. rewrite Ew in *. apply np_extent; assumption.
Qed.
Lemma matrix_nodiag_old n idx m p cb title : (3 <= p)%nat -> length idx = p -> SAct.rect p p m -> Forall (fun q => (q < 5 + n_coeff n)%nat) idx ->
  exists pn x0 n0 y0 m0, plot_variance false (map Fin (map INR idx) :: m) n false cb title = Ok {| fg_size := (6.4, 4.8); fg_title := ""; fg_panels := [pn] |} /\
    nth_error (pn_xticks pn) 0 = Some (x0, n0) /\ names_parameter (nth 0 idx 0%nat) n0 /\
    nth_error (pn_yticks pn) 0 = Some (y0, m0) /\ names_parameter (nth (p - 2) idx 0%nat) m0 /\
    forall v, shows (pn_image pn) x0 y0 v <-> v = Some (elem NaN m 0 (p - 1)).
Proof.
  intros Hp Hl Hm HF. destruct (plot_variance_nodiag_old n idx m p cb title Hp Hl Hm HF) as (pn & E & S & X & Y).
  assert (HN : forall k, (k < p)%nat -> (nth k idx 0 < 5 + n_coeff n)%nat) by (intros k Hk; rewrite Forall_forall in HF; apply HF, nth_In; lia).
  eexists pn, _, _, _, _. split; [exact E|]. split; [exact X|]. split; [apply label_names_nth, HN; lia|]. split; [exact Y|]. split; [apply label_names_nth, HN; lia|exact S].
Qed.
Lemma data_figure gd fmt N g : (forall u v b x y, SAct.rect (length y) (length x) (gd u v b x y)) -> forall u_data v_data beam d_z title res_mode fig,
  plot_beam_data gd fmt u_data v_data beam d_z N g title res_mode = Ok fig ->
  fg_title fig = title /\ length (fg_panels fig) = 3%nat /\
  forall i pn, nth_error (fg_panels fig) i = Some pn -> exists u v row b d,
    nth_error u_data i = Some u /\ nth_error v_data i = Some v /\ nth_error beam i = Some row /\ nth_error d_z i = Some d /\
    (if res_mode then b = row else normalised row b) /\ shows_data gd fmt N g pn (Nat.eqb i 0) u v b d.
Proof.
  intros H u_data v_data beam d_z title res_mode fig E. destruct (plot_beam_data_spec gd fmt N g H _ _ _ _ _ _ _ E) as (T & L & P).
  split; [exact T|]. split; [exact L|]. intros i pn Hi. destruct (P i pn Hi) as (u & v & row & b & d & A1 & A2 & A3 & A4 & A5 & A6).
  exists u, v, row, b, d. split; [exact A1|]. split; [exact A2|]. split; [exact A3|]. split; [exact A4|]. split; [|exact A6].
  destruct res_mode; [exact A5|]. destruct A5 as (q & Eq & ->). apply norm_all_normalised, Eq.
Qed.
