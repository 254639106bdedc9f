(** Fits of simulated observations. *)
From Coq Require Import String List ZArith Lia Lra.
From Verif Require Import PyBase PyLib Num MZernike MMath MAperture MRad MCore MFs MOut MAux MSim SOut SFit SBest SAux SSim SRecover PFs PSim PFit PBest PEnd PRecover.
From Coquelicot Require Import Complex.
Import ListNotations.
Open Scope R_scope.
Open Scope string_scope.
Open Scope list_scope.

Lemma map_Fin_inj (l l' : list R) : map Fin l = map Fin l' -> l = l'.
Proof. revert l'. induction l as [|x l IH]; intros [|y l'] H; try discriminate; [reflexivity|]. injection H as E H. f_equal; auto. Qed.
Lemma map2_Fin_inj (l l' : list (list R)) : map (map Fin) l = map (map Fin) l' -> l = l'.
Proof. revert l'. induction l as [|x l IH]; intros [|y l'] H; try discriminate; [reflexivity|]. injection H as E H. f_equal; [apply map_Fin_inj, E|auto]. Qed.
Lemma zero_sum r : (forall t, In t r -> t = 0) -> sum_sq r = 0.
Proof. induction r as [|y r IH]; intros Z; [reflexivity|]. rewrite sum_sq_cons, (Z y (or_introl eq_refl)), IH by (intros t Ht; apply Z; right; exact Ht). ring. Qed.
Lemma sum_bound r b : (forall t, In t r -> Rabs t <= b) -> sum_sq r <= INR (length r) * b ^ 2.
Proof.
  induction r as [|y r IH]; intros H; [cbn; lra|]. rewrite sum_sq_cons. cbn [length]. rewrite S_INR. specialize (IH (fun t Ht => H t (or_intror Ht))). specialize (H y (or_introl eq_refl)).
  assert (y * y <= b ^ 2). { rewrite <- (Rabs_right (y * y)) by (pose proof (Rle_0_sqr y); unfold Rsqr in *; lra). rewrite Rabs_mult. pose proof (Rabs_pos y). nra. }
  lra.
Qed.
Lemma observed_explained ob a sa U V p r : observation_of ob a -> same_model sa a -> ob_u ob = map (map Fin) U -> ob_v ob = map (map Fin) V ->
  residual_true (si_illum sa) (si_tel sa) p (ob_beam ob) U V (ob_d_z ob) (ob_wavel ob) (si_resolution sa) (si_box_factor sa) = Ok r -> explained a p r.
Proof.
  intros (O1 & O2 & O3 & O4 & O5) (M1 & M2 & M3 & M4) EU EV H. rewrite EU in O2. rewrite EV in O3. apply map2_Fin_inj in O2, O3. unfold explained. rewrite O1, O2, O3, O4, O5, M1, M2, M3, M4. exact H.
Qed.

Section simulated.
Variables (so : sim_oracles) (sa : sim_args) (t : fs) (f : fits_file) (t' : fs) (cwd : path) (p dir stem : string) (i : nat) (ob : observation).
Hypothesis Hphys : physical sa.
Hypothesis Htree : wf t.
Hypothesis Hsim : run (simulate_data_pyoof so sa) t = (Ok f, t').
Hypothesis Hnew : t (sim_file sa i) = None.
Hypothesis Hgen : t' (sim_file sa i) <> None.
Hypothesis Hname : names_fits p dir stem.
Hypothesis Hpath : resolve cwd p = sim_file sa i.
Hypothesis H5 : length (si_I sa) = 5%nat.
Hypothesis Hf32 : forall x, so_f32 so x = Fin x.
Hypothesis Hread : fst (run (extract_data_pyoof cwd p) t') = Ok ob.
Variables (orc : oracle) (a : fit_args) (s s' : fs) (c : config) (m : nat) (w : R).
Hypothesis Hobs : observation_of ob a.
Hypothesis Hmod : same_model sa a.
Hypothesis Hwf : wf s.
Hypothesis Hrun : run (fit_zpoly orc a) s = (Ok tt, s').
Hypothesis Hfree : free_number a s.
Hypothesis Hconf : configured a s c.
Hypothesis Hval : valid_config c.
Hypothesis Hm : (1 <= m)%nat.
Hypothesis Hall : allowed c m (si_I sa ++ si_K sa).
Hypothesis Hbest : best_from orc a c m w.

Lemma recovered : si_noise sa = 0 -> exists j, (j <= 100)%nat /\ s (numbered (fit_dir a) (fa_name a) j) = None /\
  forall n, (m <= n <= fa_order_max a)%nat -> exists rows r,
    fitpar_rows s' (numbered (fit_dir a) (fa_name a) j) n rows /\
    csv_file s' (numbered (fit_dir a) (fa_name a) j) ("res_n" ^^ dec n ^^ ".csv") ("Residual " ^^ fa_name a) (A2 (map (map Fin) r)) /\
    allowed c n (map parfit rows) /\ explained a (map parfit rows) (concat r) /\ sum_sq (concat r) <= w /\
    (forall d, determined a c n (si_I sa ++ si_K sa ++ repeat 0 (coeffs n - coeffs m)) w d -> near d (map parfit rows) (si_I sa ++ si_K sa ++ repeat 0 (coeffs n - coeffs m))).
Proof.
  intros Hq. destruct (end_exact so sa t f t' cwd p dir stem i Hphys Htree Hsim Hnew Hgen Hname Hpath H5 Hf32 Hq) as (ob' & U & V & k & E & EU & EV & _ & _ & R).
  rewrite Hread in E. apply Ok_inj in E. subst ob'. apply (observed_explained ob a sa U V _ _ Hobs Hmod EU EV) in R.
  destruct (best_bounds orc a s s' c m w Hwf Hrun Hfree Hconf Hval Hm Hbest _ _ Hall R) as (j & Hj & Hn & H). exists j. split; [exact Hj|]. split; [exact Hn|].
  intros n Hn1. destruct (H n Hn1) as (rows & r & G1 & G2 & G3 & G4 & G5). exists rows, r. split; [exact G1|]. split; [exact G2|]. split; [exact G3|]. split; [exact G4|].
  rewrite (zero_sum (repeat 0 (3 * k))) in G5 by (intros x Hx; apply repeat_spec in Hx; exact Hx). rewrite Rplus_0_l in G5.
  split; [exact G5|]. intros d O. exact (O _ _ G3 G4 G5).
Qed.
Lemma recovered_noisy e : (forall i r c, Rabs (so_normal so (si_noise sa) i r c) <= e) ->
  exists z0 z1 z2 rest u F0 F1 F2 i0 k, si_d_z sa = z0 :: z1 :: z2 :: rest /\ beams sa z0 z1 z2 u F0 F1 F2 /\ window u (half_width sa) i0 k /\
    forall D, 0 < D -> (forall F, In F [F0; F1; F2] -> exists r c r' c', (r < k /\ c < k /\ r' < k /\ c' < k)%nat /\
      D <= Cmod (at2 F (i0 + r) (i0 + c)) ^ 2 - Cmod (at2 F (i0 + r') (i0 + c')) ^ 2) ->
  exists j, (j <= 100)%nat /\ s (numbered (fit_dir a) (fa_name a) j) = None /\
  forall n, (m <= n <= fa_order_max a)%nat -> exists rows r,
    fitpar_rows s' (numbered (fit_dir a) (fa_name a) j) n rows /\
    csv_file s' (numbered (fit_dir a) (fa_name a) j) ("res_n" ^^ dec n ^^ ".csv") ("Residual " ^^ fa_name a) (A2 (map (map Fin) r)) /\
    allowed c n (map parfit rows) /\ explained a (map parfit rows) (concat r) /\ sum_sq (concat r) <= INR (3 * (k * k)) * (4 * e / D) ^ 2 + w.
Proof.
  intros He. destruct (end_noisy so sa t f t' cwd p dir stem i e Hphys Htree Hsim Hnew Hgen Hname Hpath H5 Hf32 He) as (z0 & z1 & z2 & rest & u & F0 & F1 & F2 & i0 & k & ob' & U & V & Ez & B & W & E & EU & EV & H).
  rewrite Hread in E. apply Ok_inj in E. subst ob'. exists z0, z1, z2, rest, u, F0, F1, F2, i0, k. rewrite limit_eq in W. split; [exact Ez|]. split; [exact B|]. split; [exact W|]. intros D HD HF.
  destruct (H D HD HF) as (r0 & R & L & Hr). apply (observed_explained ob a sa U V _ _ Hobs Hmod EU EV) in R.
  destruct (best_bounds orc a s s' c m w Hwf Hrun Hfree Hconf Hval Hm Hbest _ _ Hall R) as (j & Hj & Hn & G). exists j. split; [exact Hj|]. split; [exact Hn|].
  intros n Hn1. destruct (G n Hn1) as (rows & r & G1 & G2 & G3 & G4 & G5). exists rows, r. split; [exact G1|]. split; [exact G2|]. split; [exact G3|]. split; [exact G4|].
  eapply Rle_trans; [exact G5|]. apply Rplus_le_compat_r. rewrite <- L. apply sum_bound, Hr.
Qed.
End simulated.
