(** Models of lower order are contained in those of higher order. *)
From Coq Require Import String List ZArith Lia Lra Sorted.
From Verif Require Import PyBase PyLib Num MZernike SZernike MMath MAperture MRad MCore MFs MOut SOut SFit SBest PPhase PParams PFs PFit PFit5 PFit7 PFit9.
From Coquelicot Require Import Complex.
Import ListNotations.
Open Scope R_scope.
Open Scope list_scope.

Lemma coeffs_twice n : (2 * coeffs n = (n + 1) * (n + 2))%nat.
Proof. change (coeffs n) with (n_coeff n). rewrite <- ln_list_length, ln_list_swap, map_length. apply PEnum.nl_list_length_nat. Qed.
Lemma coeffs_le n k : (coeffs n <= coeffs (n + k))%nat.
Proof. pose proof (coeffs_twice n). pose proof (coeffs_twice (n + k)). nia. Qed.
Lemma coeffs_3 n : (1 <= n)%nat -> (3 <= coeffs n)%nat.
Proof. intros H. pose proof (coeffs_twice n). nia. Qed.

Lemma map2d_ext' {A B} (f g : A -> B) M : (forall x, f x = g x) -> map2d f M = map2d g M.
Proof. intros H. unfold map2d. apply map_ext. intros r. apply map_ext. exact H. Qed.
Lemma pattern_pad illum tel I K z dz wavel N bf n n' : (2 * length K = (n + 1) * (n + 2))%nat -> (2 * (length K + z) = (n' + 1) * (n' + 2))%nat ->
  radiation_pattern illum tel I (K ++ repeat 0 z) dz wavel N bf = radiation_pattern illum tel I K dz wavel N bf.
Proof.
  intros H H'. destruct (wavefront_pad K z n n' H H') as (W & W' & E & E' & EW). unfold radiation_pattern, aperture. rewrite E, E'. cbn [bind].
  destruct (illum I (tel_pr tel)) as [Ea|e]; [|reflexivity]. cbn [bind]. cbv zeta. repeat (match goal with |- bind ?x _ = bind ?x _ => destruct x; [cbn [bind]|reflexivity] end).
  do 4 f_equal. apply map2d_ext'. intros [x y]. destruct (cart2pol x y) as [rr tt0]. rewrite EW. reflexivity.
Qed.
Lemma row_pad illum tel p z u v dz wavel N bf i n n' : length p = (5 + coeffs n)%nat -> (coeffs n + z = coeffs n')%nat ->
  model_row illum tel (p ++ repeat 0 z) u v dz wavel N bf i = model_row illum tel p u v dz wavel N bf i.
Proof.
  intros L Z. unfold model_row. replace (firstn 5 (p ++ repeat 0 z)) with (firstn 5 p) by (rewrite firstn_app; replace (5 - length p)%nat with 0%nat by lia; rewrite firstn_O, app_nil_r; reflexivity).
  replace (skipn 5 (p ++ repeat 0 z)) with (skipn 5 p ++ repeat 0 z) by (rewrite skipn_app; replace (5 - length p)%nat with 0%nat by lia; reflexivity).
  destruct (py_get dz i) as [d|]; [|reflexivity]. cbn [bind]. rewrite (pattern_pad _ _ _ _ _ _ _ _ _ n n'); [reflexivity| |]; rewrite skipn_length; pose proof (coeffs_twice n); pose proof (coeffs_twice n'); lia.
Qed.
Lemma true_pad illum tel p z beam u v dz wavel N bf n n' : length p = (5 + coeffs n)%nat -> (coeffs n + z = coeffs n')%nat ->
  residual_true illum tel (p ++ repeat 0 z) beam u v dz wavel N bf = residual_true illum tel p beam u v dz wavel N bf.
Proof.
  intros L Z. unfold residual_true. cbn [fill_rows]. rewrite !(row_pad _ _ _ _ _ _ _ _ _ _ _ n n' L Z). reflexivity.
Qed.

Lemma delete_pad {A} ex (z : list A) : forall v off, (forall e, In e ex -> (e < off + length v)%nat) -> delete_at off ex (v ++ z) = delete_at off ex v ++ z.
Proof.
  induction v as [|x v IH]; intros off H; cbn [app delete_at].
  - clear -H. revert off H. induction z as [|y z IH]; intros off H; [reflexivity|]. cbn [delete_at]. replace (existsb (Nat.eqb off) ex) with false; [rewrite IH; [reflexivity|intros e He; specialize (H e He); cbn [length] in *; lia]|].
    symmetry. apply Bool.not_true_iff_false. intros E. apply existsb_exists in E. destruct E as (e & He & E). apply Nat.eqb_eq in E. specialize (H e He). cbn [length] in H. lia.
  - rewrite IH by (intros e He; specialize (H e He); cbn [length] in *; lia). destruct (existsb _ _); reflexivity.
Qed.
Lemma complete_pad fixed ex n n' z x p : length fixed = 8%nat -> Sorted lt ex -> (forall e, In e ex -> (e < 8)%nat) -> (1 <= n)%nat ->
  (length x + length ex = 5 + coeffs n)%nat -> (coeffs n + z = coeffs n')%nat -> params_complete fixed (map Z.of_nat ex) (coeffs n) x = Ok p ->
  length p = (5 + coeffs n)%nat /\ params_complete fixed (map Z.of_nat ex) (coeffs n') (x ++ repeat 0 z) = Ok (p ++ repeat 0 z).
Proof.
  intros HF HS HE Hn HL HZ E. pose proof (coeffs_3 n Hn) as N3.
  destruct (undelete ex 0 x HS) as (v & Lv & Dv); [intros e He; specialize (HE e He); lia|].
  destruct (params_round_trip fixed ex (coeffs n) v HF HS HE N3 ltac:(lia)) as (q & w & D1 & _ & C1 & L1 & W1).
  rewrite np_delete_nat in D1 by (intros e He; specialize (HE e He); lia). rewrite Dv in D1. apply Ok_inj in D1. subst q. rewrite E in C1. apply Ok_inj in C1. subst w. split; [exact L1|].
  destruct (params_round_trip fixed ex (coeffs n') (v ++ repeat 0 z) HF HS HE ltac:(lia) ltac:(rewrite app_length, repeat_length; lia)) as (q & w & D2 & _ & C2 & L2 & W2).
  rewrite np_delete_nat in D2 by (intros e He; specialize (HE e He); rewrite app_length; lia). rewrite delete_pad, Dv in D2 by (intros e He; specialize (HE e He); lia). apply Ok_inj in D2. subst q.
  rewrite C2. f_equal. apply nth_ext with (d := 0) (d' := 0); [rewrite app_length, repeat_length; lia|]. intros i Hi. rewrite W2 by lia.
  destruct (Nat.lt_ge_cases i (5 + coeffs n)) as [Hi'|Hi'].
  - rewrite !app_nth1 by lia. symmetry. apply W1. exact Hi'.
  - rewrite !app_nth2 by lia. rewrite !nth_repeat. replace (existsb (Nat.eqb i) ex) with false; [reflexivity|]. symmetry. apply Bool.not_true_iff_false. intros X. apply existsb_exists in X. destruct X as (e & He & X). apply Nat.eqb_eq in X. specialize (HE e He). lia.
Qed.
Lemma complete_always fixed ex n x : length fixed = 8%nat -> Sorted lt ex -> (forall e, In e ex -> (e < 8)%nat) -> (1 <= n)%nat -> (length x + length ex = 5 + coeffs n)%nat ->
  exists p, params_complete fixed (map Z.of_nat ex) (coeffs n) x = Ok p.
Proof.
  intros HF HS HE Hn HL. pose proof (coeffs_3 n Hn) as N3. destruct (undelete ex 0 x HS) as (v & Lv & Dv); [intros e He; specialize (HE e He); lia|].
  destruct (params_round_trip fixed ex (coeffs n) v HF HS HE N3 ltac:(lia)) as (q & w & D1 & _ & C1 & _).
  rewrite np_delete_nat in D1 by (intros e He; specialize (HE e He); lia). rewrite Dv in D1. apply Ok_inj in D1. subst q. eauto.
Qed.

Lemma feasible_shape c n x ex : valid_config c -> (1 <= n)%nat -> cf_excluded c = map Z.of_nat ex -> Sorted lt ex -> (forall e, In e ex -> (e < 8)%nat) -> feasible c n x ->
  (length x + length ex = 5 + coeffs n)%nat.
Proof.
  intros (V1 & V2 & V3 & V4 & _) Hn EX HS HE (lo & hi & D1 & _ & (L1 & _)). pose proof (coeffs_3 n Hn). rewrite EX, np_delete_nat in D1 by (intros e He; specialize (HE e He); rewrite app_length; lia). apply Ok_inj in D1.
  pose proof (delete_at_length (cf_bound_min c ++ repeat (-5) (coeffs n - 3)) 0 ex HS) as X. rewrite D1, app_length, repeat_length in X. rewrite <- L1, X; [lia|]. intros e He. specialize (HE e He). lia.
Qed.
Lemma nested a c n k x : valid_config c -> (1 <= n)%nat -> feasible c n x -> let x' := x ++ repeat 0 (coeffs (n + k) - coeffs n) in
  feasible c (n + k) x' /\ misfit a c (n + k) x' = misfit a c n x.
Proof.
  intros V Hn F x'. pose proof V as (V1 & V2 & V3 & V4 & ex & EX & HS & HE). pose proof (feasible_shape c n x ex V Hn EX HS HE F) as HL. pose proof (coeffs_le n k) as LE. pose proof (coeffs_3 n Hn) as N3. set (z := (coeffs (n + k) - coeffs n)%nat) in *. split.
  - destruct F as (lo & hi & D1 & D2 & (L1 & L2 & B)).
    assert (PD : forall (b : list R) w lo0, length b = 8%nat -> np_delete (b ++ repeat w (coeffs n - 3)) (cf_excluded c) = Ok lo0 -> np_delete (b ++ repeat w (coeffs (n + k) - 3)) (cf_excluded c) = Ok (lo0 ++ repeat w z)).
    { intros b w lo0 Lb D. rewrite EX in *. rewrite np_delete_nat in D by (intros e He; specialize (HE e He); rewrite app_length; lia). rewrite np_delete_nat by (intros e He; specialize (HE e He); rewrite app_length; lia). apply Ok_inj in D. subst lo0.
      f_equal. rewrite <- delete_pad by (intros e He; specialize (HE e He); rewrite app_length; lia). rewrite <- app_assoc, <- repeat_app. replace (coeffs n - 3 + z)%nat with (coeffs (n + k) - 3)%nat by (unfold z; lia). reflexivity. }
    exists (lo ++ repeat (-5) z), (hi ++ repeat 5 z). split; [apply PD; assumption|]. split; [apply PD; assumption|]. unfold within, x'. rewrite !app_length, !repeat_length, L1, L2. split; [reflexivity|]. split; [reflexivity|].
    intros i Hi. destruct (Nat.lt_ge_cases i (length x)) as [Hx|Hx].
    + rewrite !app_nth1 by lia. apply B. exact Hx.
    + rewrite !app_nth2 by lia. rewrite nth_repeat. rewrite L1, L2. 
      assert (R5 : forall w, nth (i - length x) (repeat w z) 0 = w) by (intros w; rewrite (nth_indep _ 0 w) by (rewrite repeat_length; lia); apply nth_repeat). rewrite !R5. lra.
  - unfold misfit, residual, x'. rewrite EX. destruct (complete_always (cf_fixed c) ex n x V2 HS HE Hn HL) as [p E].
    destruct (complete_pad (cf_fixed c) ex n (n + k) z x p V2 HS HE Hn HL ltac:(unfold z; lia) E) as [Lp E']. rewrite E, E'. cbn [bind]. apply (true_pad _ _ _ _ _ _ _ _ _ _ _ n (n + k) Lp). unfold z. lia.
Qed.

(** ** The stored residuals of the best fits *)
Section best.
Variables (orc : oracle) (a : fit_args) (s s' : fs) (c : config) (e : R).
Hypothesis Hwf : wf s.
Hypothesis Hrun : run (fit_zpoly orc a) s = (Ok tt, s').
Hypothesis Hfree : free_number a s.
Hypothesis Hconf : configured a s c.
Hypothesis Hval : valid_config c.
Hypothesis Hbest : forall n start out, (1 <= n <= fa_order_max a)%nat -> length start = (5 + coeffs n)%nat -> answered orc a c n start out -> optimal a c n e out.

Lemma best_stored : exists j, (j <= 100)%nat /\ s (numbered (fit_dir a) (fa_name a) j) = None /\
  forall n, (1 <= n <= fa_order_max a)%nat -> exists out r, optimal a c n e out /\ concat r = lo_fun out /\
    csv_file s' (numbered (fit_dir a) (fa_name a) j) ("res_n" ^^ dec n ^^ ".csv") ("Residual " ^^ fa_name a) (A2 (map (map Fin) r)).
Proof.
  destruct (stored_together orc a s s' c Hwf Hrun Hfree Hconf) as (j & snrs & Hj & Hn & _ & _ & H). exists j. split; [exact Hj|]. split; [exact Hn|].
  intros n Hn1. destruct (H n Hn1) as (rows & out & r & xy & ph & cov & cor & idx & G1 & G2 & G3 & G4 & G5 & G6 & G7 & _). exists out, r. split; [|split; [exact G7|exact G6]].
  apply (Hbest n (map parinit rows) out Hn1); [rewrite map_length; exact G2|exact G4].
Qed.
Lemma best_monotone : exists j, (j <= 100)%nat /\ s (numbered (fit_dir a) (fa_name a) j) = None /\
  forall n m, (1 <= n <= m)%nat -> (m <= fa_order_max a)%nat -> exists r r',
    csv_file s' (numbered (fit_dir a) (fa_name a) j) ("res_n" ^^ dec n ^^ ".csv") ("Residual " ^^ fa_name a) (A2 (map (map Fin) r)) /\
    csv_file s' (numbered (fit_dir a) (fa_name a) j) ("res_n" ^^ dec m ^^ ".csv") ("Residual " ^^ fa_name a) (A2 (map (map Fin) r')) /\
    sum_sq (concat r') <= sum_sq (concat r) + e.
Proof.
  destruct best_stored as (j & Hj & Hn & H). exists j. split; [exact Hj|]. split; [exact Hn|]. intros n m H1 H2.
  destruct (H n ltac:(lia)) as (out & r & (F & M & _) & E & C). destruct (H m ltac:(lia)) as (out' & r' & (_ & _ & O) & E' & C'). exists r, r'. split; [exact C|]. split; [exact C'|]. rewrite E, E'.
  destruct (nested a c n (m - n) (lo_x out) Hval ltac:(lia) F) as [F' M']. replace (n + (m - n))%nat with m in F', M' by lia. apply (O _ _ F'). rewrite M'. exact M.
Qed.
Lemma sum_sq_nonneg l : 0 <= sum_sq l.
Proof. clear. induction l as [|x l IH]; [cbn; lra|]. change (0 <= x * x + sum_sq l). pose proof (Rle_0_sqr x) as Q. unfold Rsqr in Q. lra. Qed.
Lemma sum_sq_cons x l : sum_sq (x :: l) = x * x + sum_sq l.
Proof. reflexivity. Qed.
Lemma sum_sq_zero l : sum_sq l <= 0 -> forall x, In x l -> x = 0.
Proof.
  clear. induction l as [|y l IH]; intros H x [].
  - subst y. rewrite sum_sq_cons in H. pose proof (sum_sq_nonneg l). pose proof (Rle_0_sqr x) as Q. unfold Rsqr in Q. destruct (Rmult_integral x x ltac:(lra)); assumption.
  - apply IH; [|assumption]. rewrite sum_sq_cons in H. pose proof (Rle_0_sqr y). unfold Rsqr in *. lra.
Qed.
Lemma best_exact m x r0 : (1 <= m)%nat -> feasible c m x -> misfit a c m x = Ok r0 -> (forall t, In t r0 -> t = 0) ->
  exists j, (j <= 100)%nat /\ s (numbered (fit_dir a) (fa_name a) j) = None /\
  forall n, (m <= n <= fa_order_max a)%nat -> exists r,
    csv_file s' (numbered (fit_dir a) (fa_name a) j) ("res_n" ^^ dec n ^^ ".csv") ("Residual " ^^ fa_name a) (A2 (map (map Fin) r)) /\ sum_sq (concat r) <= e.
Proof.
  intros Hm F M Z. destruct best_stored as (j & Hj & Hn & H). exists j. split; [exact Hj|]. split; [exact Hn|]. intros n Hn1. destruct (H n ltac:(lia)) as (out & r & (_ & _ & O) & E & C).
  exists r. split; [exact C|]. rewrite E. destruct (nested a c m (n - m) x Hval Hm F) as [F' M']. replace (m + (n - m))%nat with n in F', M' by lia.
  rewrite M in M'. specialize (O _ _ F' M'). assert (X : sum_sq r0 = 0) by (clear -Z; induction r0 as [|y r0 IH]; [reflexivity|]; rewrite sum_sq_cons, (Z y (or_introl eq_refl)), IH by (intros t Ht; apply Z; right; exact Ht); ring). lra.
Qed.
End best.
