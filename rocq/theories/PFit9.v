(** Contents of the stored tables in terms of the specification. *)
From Coq Require Import String Ascii List Sorted Lia.
From Verif Require Import PyBase PyLib Num MZernike SZernike PZernike MAperture MRad MCore PResid PParams MFs MOut SOut SFit PFs PStr PFit PFit2 PFit3 PFit4 PFit5 PFit6 PStore PFit7.
Import ListNotations.
Open Scope R_scope.
Open Scope string_scope.
Open Scope list_scope.

Lemma map_parname names sol init : length sol = length names -> length init = length names -> map parname (zip3 names sol init) = names.
Proof. intros. rewrite <- (zip3_names names sol init) at 2 by assumption. apply map_ext. intros [[? ?] ?]. reflexivity. Qed.
Lemma map_parfit names sol init : length sol = length names -> length init = length names -> map parfit (zip3 names sol init) = sol.
Proof. intros. rewrite <- (zip3_fit names sol init) at 2 by assumption. apply map_ext. intros [[? ?] ?]. reflexivity. Qed.
Lemma map_parinit names sol init : length sol = length names -> length init = length names -> map parinit (zip3 names sol init) = init.
Proof. intros. rewrite <- (zip3_init names sol init) at 2 by assumption. apply map_ext. intros [[? ?] ?]. reflexivity. Qed.

(** Everything stored by a successful run, order by order. *)
Lemma stored orc a s s' c : wf s -> run (fit_zpoly orc a) s = (Ok tt, s') -> free_number a s -> configured a s c ->
  exists j snrs fl, (j <= 100)%nat /\ s (numbered (fit_dir a) (fa_name a) j) = None /\ snr_values orc a = Ok snrs /\
    forall n, (1 <= n <= fa_order_max a)%nat ->
      let f := nth (n - 1) fl fit0 in
      fitted_ok orc a c n f /\ answered orc a c n (ft_init f) (ft_out f) /\
      ft_init f = start_of a c n (match n with S (S k) => ft_sol (nth k fl fit0) | _ => [] end) /\
      fitpar_rows s' (numbered (fit_dir a) (fa_name a) j) n (zip3 (param_names n) (ft_sol f) (ft_init f)) /\
      (forall r nd, r <> ["plots"] -> In (r, nd) (order_writes a snrs n f) -> s' (numbered (fit_dir a) (fa_name a) j ++ r) = Some nd).
Proof.
  intros Hwf Hr Hf Hc. destruct (fit_contents orc a s s' Hwf Hr Hf) as (c' & j & snrs & fl & Hl & Hs & Hj & Hn & Hfl & H).
  rewrite (load_configured a s c Hc) in Hl. assert (c' = c) by (injection Hl; congruence). subst c'.
  exists j, snrs, fl. split; [exact Hj|]. split; [exact Hn|]. split; [exact Hs|]. intros n Hn1. destruct (H n Hn1) as (H1 & H2 & H3).
  cbv zeta. split; [exact H1|]. split.
  { destruct H1 as (A1 & A2 & A3 & A4 & _). exists (ft_x0 (nth (n - 1) fl fit0)), (ft_lo (nth (n - 1) fl fit0)), (ft_hi (nth (n - 1) fl fit0)).
    split; [exact A1|]. split; [exact A2|]. split; [exact A3|exact A4]. }
  split; [exact H2|]. split; [|exact H3]. apply H3; [|left; reflexivity].
  intros E. apply (f_equal (hd "")) in E. cbn [hd] in E. unfold fitpar_name in E. discriminate E.
Qed.

(** C39. *)
Lemma stored_params orc a s s' c : wf s -> run (fit_zpoly orc a) s = (Ok tt, s') -> free_number a s ->
  configured a s c -> valid_config c -> sized_answers orc ->
  exists j, (j <= 100)%nat /\ s (numbered (fit_dir a) (fa_name a) j) = None /\
    forall n, (1 <= n <= fa_order_max a)%nat -> exists rows out,
      fitpar_rows s' (numbered (fit_dir a) (fa_name a) j) n rows /\
      length rows = (5 + coeffs n)%nat /\
      firstn 5 (map parname rows) = ["i_amp"; "c_dB"; "q"; "x_0"; "y_0"] /\
      (forall i l, (i <= n)%nat -> admissible (Z.of_nat i) l ->
         nth (5 + coeff_pos i l) (map parname rows) "" = "K(" ^^ decZ (Z.of_nat i) ^^ ", " ^^ decZ l ^^ ")") /\
      (forall e, In (Z.of_nat e) (cf_excluded c) -> nth e (map parfit rows) 0 = nth e (cf_fixed c) 0) /\
      answered orc a c n (map parinit rows) out /\
      np_delete (map parfit rows) (cf_excluded c) = Ok (lo_x out).
Proof.
  intros Hwf Hr Hf Hc (V1 & V2 & V3 & V4 & ex & E1 & E2 & E3) Hsz.
  destruct (stored orc a s s' c Hwf Hr Hf Hc) as (j & snrs & fl & Hj & Hn & _ & H). exists j. split; [exact Hj|]. split; [exact Hn|].
  intros n Hn1. destruct (H n Hn1) as (H1 & H2 & H3 & H4 & _). clear H. set (f := nth (n - 1) fl fit0) in *.
  destruct (pinned orc a c n f ex) as (P1 & P2 & P3); try assumption; [lia|].
  assert (L : length (ft_sol f) = length (param_names n)) by (rewrite param_names_length; apply H1).
  assert (L2 : length (ft_init f) = length (param_names n)) by (rewrite <- L; apply H1).
  exists (zip3 (param_names n) (ft_sol f) (ft_init f)), (ft_out f).
  split; [exact H4|]. split; [rewrite zip3_length by assumption; rewrite <- L; exact P1|].
  rewrite map_parname, map_parfit, map_parinit by assumption.
  split; [reflexivity|]. split; [intros i l; apply param_names_K|]. split.
  - intros e He. rewrite E1 in He. apply in_map_iff in He. destruct He as (e' & He & He'). apply Nat2Z.inj in He. subst e'. apply P2. exact He'.
  - split; assumption.
Qed.

(** C40. *)
Lemma started_at orc a c s' d fl n : (1 <= n <= fa_order_max a)%nat ->
  (forall m, (1 <= m <= fa_order_max a)%nat -> fitted_ok orc a c m (nth (m - 1) fl fit0) /\
     fitpar_rows s' d m (zip3 (param_names m) (ft_sol (nth (m - 1) fl fit0)) (ft_init (nth (m - 1) fl fit0)))) ->
  ft_init (nth (n - 1) fl fit0) = start_of a c n (match n with S (S k) => ft_sol (nth k fl fit0) | _ => [] end) ->
  started a c s' d n (ft_init (nth (n - 1) fl fit0)).
Proof.
  intros Hn1 H H3. split.
  - intros Hc1. rewrite H3. unfold start_of. replace (fa_fit_previous a && negb (Nat.eqb n 1))%bool with false; [reflexivity|].
    destruct Hc1 as [->| ->]; [reflexivity|]. rewrite andb_false_r. reflexivity.
  - intros Hp Hn2. destruct (H (n - 1)%nat ltac:(lia)) as (G1 & G4). destruct n as [|[|k]]; [lia|lia|].
    replace (S (S k) - 1 - 1)%nat with k in * by lia.
    eexists. split; [exact G4|]. rewrite map_parfit.
    + rewrite H3. unfold start_of. rewrite Hp. replace (Nat.eqb (S (S k)) 1) with false by reflexivity. cbn [negb andb].
      rewrite half_tri. replace (n_coeff (S (S k)) - (n_coeff (S (S k)) - (S (S k) + 1)))%nat with (S (S k) + 1)%nat; [reflexivity|].
      rewrite (n_coeff_pred (S (S k))) by lia. lia.
    + rewrite param_names_length. apply G1.
    + rewrite param_names_length. destruct G1 as (_ & _ & _ & _ & _ & _ & _ & _ & Q1 & Q2). congruence.
Qed.
Lemma stored_starts orc a s s' c : wf s -> run (fit_zpoly orc a) s = (Ok tt, s') -> free_number a s -> configured a s c ->
  exists j, (j <= 100)%nat /\ s (numbered (fit_dir a) (fa_name a) j) = None /\
    forall n, (1 <= n <= fa_order_max a)%nat -> exists rows out,
      fitpar_rows s' (numbered (fit_dir a) (fa_name a) j) n rows /\ answered orc a c n (map parinit rows) out /\
      (fa_fit_previous a = false \/ n = 1%nat -> map parinit rows = cf_init c ++ repeat (1 / 10) (coeffs n - 3)) /\
      (fa_fit_previous a = true -> (2 <= n)%nat -> exists rows',
         fitpar_rows s' (numbered (fit_dir a) (fa_name a) j) (n - 1) rows' /\
         map parinit rows = map parfit rows' ++ repeat (1 / 10) (n + 1)).
Proof.
  intros Hwf Hr Hf Hc.
  destruct (stored orc a s s' c Hwf Hr Hf Hc) as (j & snrs & fl & Hj & Hn & _ & H). exists j. split; [exact Hj|]. split; [exact Hn|].
  intros n Hn1. destruct (H n Hn1) as (H1 & H2 & H3 & H4 & _). set (f := nth (n - 1) fl fit0) in *.
  assert (L : length (ft_sol f) = length (param_names n)) by (rewrite param_names_length; apply H1).
  assert (L2 : length (ft_init f) = length (param_names n)) by (rewrite <- L; apply H1).
  exists (zip3 (param_names n) (ft_sol f) (ft_init f)), (ft_out f). split; [exact H4|].
  rewrite map_parinit by assumption. split; [exact H2|].
  apply (started_at orc a c s' _ fl n Hn1); [|exact H3]. intros m Hm. destruct (H m Hm) as (G1 & _ & _ & G4 & _). split; assumption.
Qed.

(** C63: the files of one order belong together. *)
Lemma order_csv a snrs n f k : (3 <= k < 9)%nat ->
  In ([fst (nth k (csv_layout n) ("", ""))], File (Csv (snd (nth k (csv_layout n) ("", "")) ^^ " " ^^ fa_name a) (nth k (order_data a f) (A1 []))))
     (order_writes a snrs n f).
Proof.
  intros Hk. unfold order_writes. right. apply in_or_app. right. apply in_or_app. left. rewrite csv_writes_at by reflexivity.
  rewrite <- csv_at_fst. apply in_map. apply written_iff. split; [lia|]. right. lia.
Qed.
Lemma order_csv_first a snrs f k : (k < 9)%nat ->
  In ([fst (nth k (csv_layout 1) ("", ""))], File (Csv (snd (nth k (csv_layout 1) ("", "")) ^^ " " ^^ fa_name a) (nth k (order_data a f) (A1 []))))
     (order_writes a snrs 1 f).
Proof.
  intros Hk. unfold order_writes. right. apply in_or_app. right. apply in_or_app. left. rewrite csv_writes_at by reflexivity.
  rewrite <- csv_at_fst. apply in_map. apply written_iff. split; [lia|]. left. reflexivity.
Qed.
Lemma skipn_skipn2 {A} (a b : nat) (l : list A) : skipn a (skipn b l) = skipn (b + a) l.
Proof. revert l. induction b as [|b IH]; intros l; [reflexivity|]. destruct l; [rewrite !skipn_nil; reflexivity|]. cbn [skipn Nat.add]. apply IH. Qed.
Lemma reshape3_concat l m : reshape3 l = Ok m -> concat m = l /\ length m = 3%nat /\ (forall r, In r m -> (3 * length r = length l)%nat).
Proof.
  unfold reshape3. destruct (Nat.eqb (length l mod 3) 0) eqn:E; [|discriminate]. intros H. apply Ok_inj in H. subst m. apply Nat.eqb_eq in E.
  pose proof (Nat.div_mod (length l) 3 ltac:(lia)) as D. rewrite E in D. set (k := (length l / 3)%nat) in *. split; [|split; [reflexivity|]].
  - cbn [concat]. rewrite app_nil_r. rewrite <- (firstn_skipn k l) at 4. f_equal.
    rewrite <- (firstn_skipn k (skipn k l)) at 2. f_equal. rewrite skipn_skipn2. reflexivity.
  - intros r [<-|[<-|[<-|[]]]]; rewrite ?firstn_length, ?skipn_length; lia.
Qed.
Lemma vstack_inv h m r : vstack h m = Ok r -> r = h :: m /\ forall x, In x m -> length x = length h.
Proof.
  unfold vstack. destruct (forallb _ m) eqn:E; [|discriminate]. intros H. apply Ok_inj in H. split; [congruence|].
  intros x Hx. rewrite forallb_forall in E. apply Nat.eqb_eq, E, Hx.
Qed.
Lemma plots_ne_csv n k : (k < 9)%nat -> [fst (nth k (csv_layout n) ("", ""))] <> ["plots"].
Proof. intros H E. apply (f_equal (hd "")) in E. do 9 (destruct k as [|k]; [discriminate E|]). lia. Qed.
Lemma delete_at_same ex off (v w : list R) : length v = length w -> length (delete_at off ex v) = length (delete_at off ex w).
Proof.
  revert off w. induction v as [|x v IH]; intros off [|y w] H; try discriminate; [reflexivity|]. cbn [delete_at]. destruct (existsb (Nat.eqb off) ex); cbn [length]; rewrite (IH (S off) w); auto.
Qed.
Lemma np_delete_length (v w x y : list R) ex : np_delete v ex = Ok x -> np_delete w ex = Ok y -> length v = length w -> length x = length y.
Proof.
  unfold np_delete. intros H1 H2 L. rewrite L in H1. destruct (mapM (np_index (length w)) ex) as [e|e]; [|discriminate].
  cbn [bind] in H1, H2. apply Ok_inj in H1. apply Ok_inj in H2. subst. apply delete_at_same, L.
Qed.
Lemma stored_together orc a s s' c : wf s -> run (fit_zpoly orc a) s = (Ok tt, s') -> free_number a s -> configured a s c ->
  exists j snrs, (j <= 100)%nat /\ s (numbered (fit_dir a) (fa_name a) j) = None /\ snr_values orc a = Ok snrs /\
    let d := numbered (fit_dir a) (fa_name a) j in
    ((1 <= fa_order_max a)%nat ->
       csv_file s' d "beam_data.csv" ("Normalized beam " ^^ fa_name a) (A2 (fa_beam a)) /\
       csv_file s' d "u_data.csv" ("u vector radians " ^^ fa_name a) (A2 (map (map Fin) (fa_u a))) /\
       csv_file s' d "v_data.csv" ("v vector radians " ^^ fa_name a) (A2 (map (map Fin) (fa_v a))) /\
       exists i, s' (d ++ ["pyoof_info.yml"]) = Some (File (Info i)) /\ describes i a snrs) /\
    forall n, (1 <= n <= fa_order_max a)%nat -> exists rows out r xy ph cov cor idx,
      fitpar_rows s' d n rows /\ length rows = (5 + coeffs n)%nat /\ started a c s' d n (map parinit rows) /\
      answered orc a c n (map parinit rows) out /\ params_complete (cf_fixed c) (cf_excluded c) (coeffs n) (lo_x out) = Ok (map parfit rows) /\
      csv_file s' d ("res_n" ^^ dec n ^^ ".csv") ("Residual " ^^ fa_name a) (A2 (map (map Fin) r)) /\
      concat r = lo_fun out /\ length r = 3%nat /\ (forall x, In x r -> (3 * length x = length (lo_fun out))%nat) /\
      csv_file s' d ("jac_n" ^^ dec n ^^ ".csv") ("Jacobian " ^^ fa_name a) (A2 (map (map Fin) (lo_jac out))) /\
      csv_file s' d ("grad_n" ^^ dec n ^^ ".csv") ("Gradient " ^^ fa_name a) (A1 (map Fin (lo_grad out))) /\
      phase (skipn 5 (map parfit rows)) (tel_pr (fa_tel a)) false false 1000 = Ok (xy, ph) /\
      csv_file s' d ("phase_n" ^^ dec n ^^ ".csv") ("Phase-error radians " ^^ fa_name a) (A2 (map (map Fin) ph)) /\
      np_delete (map INR (seq 0 (length rows))) (cf_excluded c) = Ok idx /\
      or_comat orc (lo_fun out) (lo_jac out) (length idx) = Ok (cov, cor) /\
      csv_file s' d ("cov_n" ^^ dec n ^^ ".csv") ("Variance-Covariance matrix (first row fitted parameters idx) " ^^ fa_name a) (A2 (map (map Fin) (idx :: cov))) /\
      csv_file s' d ("corr_n" ^^ dec n ^^ ".csv") ("Correlation matrix (first row fitted parameters idx) " ^^ fa_name a) (A2 (map (map Fin) (idx :: cor))).
Proof.
  intros Hwf Hr Hf Hc.
  destruct (stored orc a s s' c Hwf Hr Hf Hc) as (j & snrs & fl & Hj & Hn & Hs & H). exists j, snrs. split; [exact Hj|]. split; [exact Hn|]. split; [exact Hs|].
  cbv zeta. split.
  - intros H1. destruct (H 1%nat ltac:(lia)) as (_ & _ & _ & _ & W). cbn [Nat.sub] in W. set (f := nth 0 fl fit0) in *.
    pose proof (W _ _ (plots_ne_csv 1 0 ltac:(lia)) (order_csv_first a snrs f 0 ltac:(lia))) as W0.
    pose proof (W _ _ (plots_ne_csv 1 1 ltac:(lia)) (order_csv_first a snrs f 1 ltac:(lia))) as W1.
    pose proof (W _ _ (plots_ne_csv 1 2 ltac:(lia)) (order_csv_first a snrs f 2 ltac:(lia))) as W2.
    split; [exact W0|]. split; [exact W1|]. split; [exact W2|]. exists (info_of a snrs). split.
    + apply W; [intros E; apply (f_equal (hd "")) in E; discriminate E|]. right. left. reflexivity.
    + repeat split.
  - intros n Hn1. destruct (H n Hn1) as (H1 & H2 & H3 & H4 & W). set (f := nth (n - 1) fl fit0) in *.
    assert (L : length (ft_sol f) = length (param_names n)) by (rewrite param_names_length; apply H1).
    assert (L2 : length (ft_init f) = length (param_names n)) by (rewrite <- L; apply H1).
    destruct H1 as (F1 & F2 & F3 & F4 & F5 & F6 & (cc & idx & C1 & C2 & C3 & C4) & (xy & F7) & F8 & F9).
    apply vstack_inv in C3. apply vstack_inv in C4. destruct C3 as [C3 C3'], C4 as [C4 C4']. apply reshape3_concat in F6. destruct F6 as (R1 & R2 & R3).
    assert (LI : length idx = length (ft_x0 f)).
    { rewrite (np_delete_length _ _ _ _ _ C2 F1); [reflexivity|]. rewrite map_length, seq_length, F9, F8, ln_list_length. lia. }
    exists (zip3 (param_names n) (ft_sol f) (ft_init f)), (ft_out f), (ft_res f), xy, (ft_phase f), (fst cc), (snd cc), idx.
    rewrite map_parinit, map_parfit, zip3_length by assumption.
    assert (K : forall k, (3 <= k < 9)%nat -> _) by exact (fun k Hk => W _ _ (plots_ne_csv n k ltac:(lia)) (order_csv a snrs n f k Hk)).
    split; [exact H4|]. split; [rewrite param_names_length, ln_list_length; reflexivity|].
    split. { apply (started_at orc a c s' _ fl n Hn1); [|exact H3]. intros m Hm. destruct (H m Hm) as (G1 & _ & _ & G4 & _). split; assumption. }
    split; [exact H2|]. split; [exact F5|]. split; [exact (K 3%nat ltac:(lia))|]. split; [exact R1|]. split; [exact R2|]. split; [exact R3|].
    split; [exact (K 4%nat ltac:(lia))|]. split; [exact (K 5%nat ltac:(lia))|]. split; [exact F7|]. split; [exact (K 6%nat ltac:(lia))|].
    split. { rewrite param_names_length, ln_list_length. rewrite (Nat.add_comm 5). exact C2. }
    split. { rewrite LI, C1. destruct cc; reflexivity. }
    split; [rewrite <- C3; exact (K 7%nat ltac:(lia))|rewrite <- C4; exact (K 8%nat ltac:(lia))].
Qed.
