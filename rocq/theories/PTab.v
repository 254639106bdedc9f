(** Lemmas about table_pyoof_out. *)
From Coq Require Import String Ascii List.
From Verif Require Import PyBase PyLib Sums Num MZernike SZernike MMath MAperture MRad MCore MFs MOut SMath SOut SFit PFs PStr PRms PPhase PPhase2 PWave PFit6 PStore PFit7 PFit8 PFit9 MTab STab.
Import ListNotations.
Open Scope R_scope.
Open Scope string_scope.
Open Scope list_scope.
Open Scope prog_scope.

Lemma run_read {A} p (k : doc -> prog A) s : run (bindP (callE (Read p)) k) s =
  match s p with Some (File d) => run (k d) s | Some Dir => (Err OSError, s) | None => (Err FileNotFoundError, s) end.
Proof. rewrite run_bind. cbn [callE run exec]. destruct (s p) as [[|d]|]; reflexivity. Qed.

Lemma run_lift_bind {A B} (x : res A) (k : A -> prog B) s : run (bindP (lift x) k) s = match x with Ok a => run (k a) s | Err e => (Err e, s) end.
Proof. destruct x; reflexivity. Qed.

Lemma square_of_rms m x : rms_circ m = Ok x -> (exists k, rect k m) -> (2 <= length m)%nat -> square (length m) m.
Proof.
  intros R [k K] L. split; [reflexivity|]. unfold rms_circ in R. cbv zeta in R. destruct (Nat.eqb (length m) (ncols m)) eqn:E; [|discriminate R]. apply Nat.eqb_eq in E.
  destruct m as [|r t]; [cbn in L; lia|]. cbn [ncols] in E. rewrite E. rewrite (K r (or_introl eq_refl)). exact K.
Qed.

Lemma row_run s d n : exists x, run (table_row d n) s = (x, s).
Proof.
  unfold table_row. rewrite run_read. destruct (s _) as [[|di]|]; try (eexists; reflexivity).
  rewrite run_read. destruct (s _) as [[|dp]|]; try (eexists; reflexivity).
  rewrite run_lift_bind. destruct (read_phase dp) as [ph|]; [|eexists; reflexivity].
  rewrite run_lift_bind. destruct (rms_circ ph) as [rp|]; [|eexists; reflexivity].
  rewrite run_lift_bind. destruct (e_rs_circ (snd rp)) as [ep|]; [|eexists; reflexivity].
  rewrite run_read. destruct (s _) as [[|dt]|]; try (eexists; reflexivity).
  rewrite run_bind. destruct dt as [|rows| | | | | |]; try (eexists; reflexivity). cbn [run].
  rewrite run_bind. destruct di as [| | |i| | | |]; try (eexists; reflexivity). cbn [run].
  rewrite run_lift_bind. destruct (py_get _ 0); [|eexists; reflexivity].
  rewrite run_lift_bind. destruct (py_get _ 1); [|eexists; reflexivity].
  rewrite run_lift_bind. destruct (py_get _ 2); [|eexists; reflexivity].
  destruct (Nat.eqb _ _); eexists; reflexivity.
Qed.

Lemma parfit_eq rows : map (fun '(_, fit, _) => fit) rows = map parfit rows.
Proof. apply map_ext. intros [[a b] c]. reflexivity. Qed.

Lemma get3 (l : list R) a b c : py_get (firstn 5 l) 0 = Ok a -> py_get (firstn 5 l) 1 = Ok b -> py_get (firstn 5 l) 2 = Ok c -> exists rest, l = a :: b :: c :: rest.
Proof. destruct l as [|x [|y [|z t]]]; cbn; try discriminate. intros H1 H2 H3. apply Ok_inj in H1, H2, H3. subst. exists t. reflexivity. Qed.

Lemma row_sound s d n r : arrays_stored s -> fst (run (table_row d n) s) = Ok r -> summarises s n d r.
Proof.
  intros AS. unfold table_row. rewrite run_read. destruct (s _) as [[|di]|] eqn:E1; try discriminate.
    rewrite run_read. destruct (s (d ++ ["phase_n" ^^ dec n ^^ ".csv"])) as [[|dp]|] eqn:E2; try discriminate.
    rewrite run_lift_bind. destruct (read_phase dp) as [ph|] eqn:EP; [|discriminate].
    rewrite run_lift_bind. destruct (rms_circ ph) as [[v l1]|] eqn:ER; [|discriminate].
    rewrite run_lift_bind. cbn [fst snd]. destruct (e_rs_circ l1) as [[e l2]|] eqn:EE; [|discriminate].
    rewrite run_read. destruct (s (d ++ [fitpar_name n])) as [[|dt]|] eqn:E3; try discriminate.
    rewrite run_bind. destruct dt as [|rows| | | | | |]; try discriminate. cbn [run].
    rewrite run_bind. destruct di as [| | |i| | | |]; try discriminate. cbn [run].
    rewrite run_lift_bind. destruct (py_get _ 0) as [c0|] eqn:G0; [|discriminate].
    rewrite run_lift_bind. destruct (py_get _ 1) as [c1|] eqn:G1; [|discriminate].
    rewrite run_lift_bind. destruct (py_get _ 2) as [c2|] eqn:G2; [|discriminate].
    destruct (Nat.eqb _ _) eqn:L; [|discriminate]. cbn [run fst]. intros H. apply Ok_inj in H. subst r. apply Nat.eqb_eq in L.
    rewrite parfit_eq in *. destruct (get3 _ _ _ _ G0 G1 G2) as [rest HR].
    assert (M : exists h, dp = Csv h (A2 ph) /\ (2 <= length ph)%nat).
    { destruct dp as [| |h x| | | | |]; try discriminate EP. destruct x as [|m]; [discriminate EP|]. unfold read_phase in EP. destruct (Nat.leb 2 (length m)) eqn:LL; [|discriminate EP].
      destruct (Nat.leb 2 (ncols m)); [|discriminate EP]. cbn [andb] in EP. apply Ok_inj in EP. subst m. exists h. split; [reflexivity|]. apply Nat.leb_le. exact LL. }
    destruct M as (h & -> & LL).
    assert (SQ : square (length ph) ph) by (apply (square_of_rms ph _ ER); [apply (AS _ _ _ E2)|exact LL]).
    exists i, rows, h, ph, (length ph), l1, l1, c0, c1, c2, rest. cbn.
    split; [exact E1|]. do 6 (split; [reflexivity|]). split; [cbn in L; lia|]. split; [exact E3|]. split; [exact HR|]. do 3 (split; [reflexivity|]).
    split; [exact E2|]. split; [exact SQ|]. split; [exact LL|]. split; [exact ER|].
    pose proof (rms_circ_second _ _ _ _ SQ ER) as R2. rewrite (e_rs_circ_eq _ _ _ R2) in EE. injection EE as <- _. apply e_rs_circ_eq. exact ER.
Qed.

Lemma row_complete s d n r : summarises s n d r -> fst (run (table_row d n) s) = Ok r.
Proof.
  intros (i & rows & h & m & N & l1 & l2 & c0 & c1 & c2 & rest & H1 & N1 & N2 & N3 & N4 & N5 & N6 & L & H2 & HR & P0 & P1 & P2 & H3 & SQ & LL & ER & EE).
    unfold fitpar_rows in H2. unfold csv_file in H3. change ("fitpar_n" ^^ dec n ^^ ".csv") with (fitpar_name n) in H2.
    unfold table_row. rewrite run_read, H1, run_read, H3, run_lift_bind. unfold read_phase.
    pose proof SQ as [SL SR]. assert (NC : ncols m = N).
    { destruct m as [|r0 t]; [cbn in SL; lia|]. apply SR. left. reflexivity. }
    rewrite SL, NC. replace (Nat.leb 2 N) with true by (symmetry; apply Nat.leb_le; exact LL). cbn [andb].
    rewrite run_lift_bind, ER, run_lift_bind. cbn [fst snd]. pose proof (rms_circ_second _ _ _ _ SQ ER) as R2.
    rewrite (e_rs_circ_eq _ _ _ R2). rewrite (e_rs_circ_eq _ _ _ ER) in EE. injection EE as EE _.
    rewrite run_read, H2, run_bind. cbn [run]. rewrite run_bind. cbn [run]. rewrite parfit_eq, HR.
    cbn [firstn py_get nth_error]. do 3 (rewrite run_lift_bind). rewrite L. cbn [Nat.add Nat.eqb run fst].
    destruct r. cbn in *. subst. reflexivity.
Qed.

Lemma row_iff s d n r : arrays_stored s -> (fst (run (table_row d n) s) = Ok r <-> summarises s n d r).
Proof. intros AS. split; [apply row_sound; exact AS|apply row_complete]. Qed.

Lemma rows_complete s ds n rs : Forall2 (summarises s n) ds rs -> run (table_rows ds n) s = (Ok rs, s).
Proof.
  induction 1 as [|d r t rs H HH IH]; [reflexivity|]. cbn [table_rows]. rewrite run_bind. destruct (row_run s d n) as [x E]. rewrite E. apply row_complete in H. rewrite E in H. cbn [fst] in H. subst x.
  rewrite run_bind, IH. reflexivity.
Qed.

Lemma table_complete isot s ds n rs : Forall2 (summarises s n) ds rs -> (forall r, In r rs -> isot (tr_date r) = true) ->
  run (table_pyoof_out isot ds n) s = (Ok (n, rs), s).
Proof. intros H D. unfold table_pyoof_out. rewrite run_bind, (rows_complete s ds n rs H). replace (forallb _ _) with true by (symmetry; apply forallb_forall; exact D). reflexivity. Qed.

Lemma rows_run s ds n : exists x, run (table_rows ds n) s = (x, s).
Proof.
  induction ds as [|d t IH]; [eexists; reflexivity|]. cbn [table_rows]. rewrite run_bind. destruct (row_run s d n) as [x ->]. destruct x as [r|e]; [|eexists; reflexivity].
  rewrite run_bind. destruct IH as [y ->]. destruct y; eexists; reflexivity.
Qed.

Lemma rows_iff s ds n rs : arrays_stored s -> (fst (run (table_rows ds n) s) = Ok rs <-> Forall2 (summarises s n) ds rs).
Proof.
  intros AS. revert rs. induction ds as [|d t IH]; intros rs.
  - cbn. split; [intros H; apply Ok_inj in H; subst; constructor|intros H; inversion H; reflexivity].
  - cbn [table_rows]. rewrite run_bind. destruct (row_run s d n) as [x E]. rewrite E. pose proof (fun r => row_iff s d n r AS) as RI. rewrite E in RI. cbn [fst] in RI.
    split.
    + destruct x as [r|e]; [|discriminate]. rewrite run_bind. destruct (rows_run s t n) as [y F]. rewrite F in *. cbn [fst] in IH. destruct y as [rs'|e]; [|discriminate].
      cbn [run fst]. intros H. apply Ok_inj in H. subst rs. constructor; [apply RI; reflexivity|apply IH; reflexivity].
    + intros H. inversion H as [|? r ? rs' Hr Hrs]; subst. apply RI in Hr. subst x. rewrite run_bind. apply IH in Hrs. destruct (rows_run s t n) as [y F]. rewrite F in *. cbn [fst] in Hrs. subst y. reflexivity.
Qed.

Lemma table_unchanged isot ds n s : snd (run (table_pyoof_out isot ds n) s) = s.
Proof. unfold table_pyoof_out. rewrite run_bind. destruct (rows_run s ds n) as [x ->]. destruct x; [|reflexivity]. destruct (forallb _ _); reflexivity. Qed.

Lemma table_iff isot ds n s k rs : arrays_stored s ->
  (fst (run (table_pyoof_out isot ds n) s) = Ok (k, rs) <-> k = n /\ Forall2 (summarises s n) ds rs /\ forall r, In r rs -> isot (tr_date r) = true).
Proof.
  intros AS. unfold table_pyoof_out. rewrite run_bind. pose proof (fun rs => rows_iff s ds n rs AS) as RI. destruct (rows_run s ds n) as [x E]. rewrite E in *. cbn [fst] in RI. split.
  - destruct x as [rs'|]; [|discriminate]. destruct (forallb _ _) eqn:F; [|discriminate]. cbn. intros H. apply Ok_inj in H. injection H as -> ->. split; [reflexivity|]. split; [apply RI; reflexivity|].
    apply forallb_forall. exact F.
  - intros (-> & H & D). apply RI in H. subst x. replace (forallb _ _) with true by (symmetry; apply forallb_forall; exact D). reflexivity.
Qed.

(** Rows are determined by the stored files. *)
Lemma summarises_unique s n d r r' : summarises s n d r -> summarises s n d r' -> r = r'.
Proof.
  intros (i & rows & h & m & N & l1 & l2 & c0 & c1 & c2 & rest & H1 & N1 & N2 & N3 & N4 & N5 & N6 & L & H2 & HR & P0 & P1 & P2 & H3 & SQ & LL & ER & EE)
    (i' & rows' & h' & m' & N' & l1' & l2' & c0' & c1' & c2' & rest' & H1' & N1' & N2' & N3' & N4' & N5' & N6' & L' & H2' & HR' & P0' & P1' & P2' & H3' & SQ' & LL' & ER' & EE').
  unfold fitpar_rows, csv_file in *. rewrite H1 in H1'. rewrite H2 in H2'. rewrite H3 in H3'. injection H1' as <-. injection H2' as <-. injection H3' as _ <-.
  rewrite HR in HR'. injection HR' as <- <- <- _. rewrite ER in ER'. rewrite EE in EE'. injection ER' as ER' _. injection EE' as EE' _.
  destruct r, r'. cbn in *. subst. congruence.
Qed.

(** The phase map of a run. *)
Lemma map_fin_square N ph : square N ph -> square N (map (map Fin) ph).
Proof. intros [L R]. split; [rewrite map_length; exact L|]. intros row H. apply in_map_iff in H. destruct H as (r & <- & H). rewrite map_length. apply R. exact H. Qed.

Lemma phase_square K pr piston tilt N x y phi : phase K pr piston tilt N = Ok (x, y, phi) -> square N phi.
Proof.
  intros H. destruct (phase_inv _ _ _ _ _ _ _ _ H) as (K' & W & _ & _ & Hx & Hy & Hp). subst. unfold pixel_map, map2d, meshgrid.
  assert (LN : forall a b n, length (linspace a b n) = n) by (intros; unfold linspace; rewrite map_length, seq_length; reflexivity).
  split; [rewrite !map_length; apply LN|]. intros row R. apply in_map_iff in R. destruct R as (g & <- & R). apply in_map_iff in R. destruct R as (yj & <- & R). rewrite !map_length. apply LN.
Qed.

Lemma grid_of N (m : list (list R)) : square N m -> map (map Fin) m = grid N (fun j i => Fin (nth i (nth j m []) 0)).
Proof.
  intros SQ. apply (square_ext NaN N); [apply map_fin_square; exact SQ|apply grid_square|]. intros i j I J. rewrite grid_nth by assumption. destruct SQ as [L R].
  rewrite (nth_indep _ [] (map Fin [])) by (rewrite map_length; lia). rewrite map_nth.
  assert (LR : length (nth j m []) = N) by (apply R, nth_In; lia).
  rewrite (nth_indep _ NaN (Fin 0)) by (rewrite map_length; lia). apply map_nth.
Qed.

Lemma disk_centre N : (3 <= N)%nat -> diskb N (N / 2) (N / 2) = true.
Proof.
  intros H. unfold diskb. rewrite linspace_nth by (apply Nat.div_lt; lia). destruct (Rle_dec _ 1) as [|X]; [reflexivity|]. exfalso. apply X. clear X.
  pose proof (Nat.div_mod N 2 ltac:(lia)) as D. pose proof (Nat.mod_upper_bound N 2 ltac:(lia)) as M. set (h := (N / 2)%nat) in *.
  assert (N1 : 0 < INR (N - 1)) by (apply lt_0_INR; lia).
  assert (B : Rabs (-1 + INR h * ((1 - -1) / INR (N - 1))) <= 1 / 2).
  { replace (-1 + INR h * ((1 - -1) / INR (N - 1))) with ((2 * INR h - INR (N - 1)) / INR (N - 1)) by (field; lra).
    unfold Rdiv. rewrite Rabs_mult, (Rabs_right (/ INR (N - 1))) by (left; apply Rinv_0_lt_compat; exact N1).
    apply (Rmult_le_reg_r (INR (N - 1))); [exact N1|]. rewrite Rmult_assoc, Rinv_l, Rmult_1_r by lra.
    rewrite minus_INR by lia. rewrite D at 1. rewrite plus_INR, mult_INR. cbn [INR]. assert (NN : 3 <= INR N) by (apply (le_INR 3) in H; cbn in H; lra).
    assert (MM : INR (N mod 2) = 0 \/ INR (N mod 2) = 1) by (destruct (N mod 2)%nat as [|[|]]; [left|right|lia]; reflexivity).
    unfold Rabs. destruct (Rcase_abs _); destruct MM as [->| ->]; lra. }
  revert B. unfold Rabs. destruct (Rcase_abs _); intros B; nra.
Qed.

Lemma disk_count N : (3 <= N)%nat -> 0 < Rsum N (fun j => Rsum N (fun i => if diskb N i j then 1 else 0)).
Proof.
  intros H. assert (HN : (N / 2 < N)%nat) by (apply Nat.div_lt; lia).
  apply Rlt_le_trans with (Rsum N (fun i => if diskb N i (N / 2) then 1 else 0)).
  - apply Rlt_le_trans with (if diskb N (N / 2) (N / 2) then 1 else 0); [rewrite disk_centre by exact H; lra|].
    apply (Rsum_ge_term N (N / 2) (fun i => if diskb N i (N / 2) then 1 else 0)); [|exact HN]. intros i _. destruct (diskb _ _ _); lra.
  - apply (Rsum_ge_term N (N / 2) (fun j => Rsum N (fun i => if diskb N i j then 1 else 0))); [|exact HN]. intros j _. apply Rsum_nonneg. intros i _. destruct (diskb _ _ _); lra.
Qed.

Lemma rms_of_map N m : (3 <= N)%nat -> square N m -> exists left1, rms_circ (map (map Fin) m) = Ok (Fin (sqrt (disk_mean_square N m)), left1).
Proof.
  intros H SQ. rewrite (grid_of N m SQ). destruct (rms_circ_value N (fun j i => nth i (nth j m []) 0)) as [P E]. exists P. rewrite E.
  pose proof (disk_count N H). destruct (Req_EM_T _ 0); [lra|reflexivity].
Qed.

Lemma e_rs_of_map N m : (3 <= N)%nat -> square N m -> exists left1, e_rs_circ (map (map Fin) m) = Ok (Fin (exp (- disk_mean_square N m)), left1).
Proof.
  intros H SQ. destruct (rms_of_map N m H SQ) as [P E]. exists P. rewrite (e_rs_circ_eq _ _ _ E). cbn [nexp_negsq]. rewrite pow2_sqrt; [reflexivity|].
  unfold disk_mean_square. apply Rmult_le_pos; [|left; apply Rinv_0_lt_compat, disk_count; exact H].
  apply Rsum_nonneg. intros j _. apply Rsum_nonneg. intros i _. destruct (diskb _ _ _); [apply pow2_ge_0|lra].
Qed.

Lemma long_params n rows pr xy ph : phase (skipn 5 (map parfit rows)) pr false false n = Ok (xy, ph) ->
  exists c0 c1 c2 rest, map parfit rows = c0 :: c1 :: c2 :: rest.
Proof.
  intros H. destruct (map parfit rows) as [|a [|b [|c t]]]; [| | |eauto]; cbn [skipn] in H; rewrite phase_index_error in H by (left; split; reflexivity); discriminate H.
Qed.

Lemma snr_three orc a snrs : snr_values orc a = Ok snrs -> length snrs = 3%nat.
Proof. intros H. apply mapM_length in H. exact H. Qed.

(** Reading back a run. *)
Lemma table_after_fit isot orc a s s' c : file_tree s -> run (fit_zpoly orc a) s = (Ok tt, s') -> free_number a s -> configured a s c -> isot (fa_date a) = true ->
  exists j, (j <= 100)%nat /\ s (numbered (fit_dir a) (fa_name a) j) = None /\ let d := numbered (fit_dir a) (fa_name a) j in
    forall n, (1 <= n <= fa_order_max a)%nat -> exists r rows xy ph c0 c1 c2 rest,
      run (table_pyoof_out isot [d] n) s' = (Ok (n, [r]), s') /\
      tr_name r = fa_name a /\ tr_tel_name r = fa_tel_name a /\ tr_object r = fa_object a /\ tr_date r = fa_date a /\ tr_meanel r = fa_meanel a /\
      snr_values orc a = Ok (tr_snr r) /\
      fitpar_rows s' d n rows /\ length rows = (5 + coeffs n)%nat /\ map parfit rows = c0 :: c1 :: c2 :: rest /\ tr_i_amp r = c0 /\ tr_c_dB r = c1 /\ tr_q r = c2 /\
      phase (skipn 5 (map parfit rows)) (tel_pr (fa_tel a)) false false 1000 = Ok (xy, ph) /\
      tr_rms r = Fin (sqrt (disk_mean_square 1000 ph)) /\ tr_e_rs r = Fin (exp (- disk_mean_square 1000 ph)).
Proof.
  intros T R F C I. destruct (stored_together orc a s s' c T R F C) as (j & snrs & J & N & SN & D0 & D1). exists j. split; [exact J|]. split; [exact N|]. cbv zeta in *.
  intros n Hn. destruct D0 as (_ & _ & _ & i & HI & DE); [lia|]. destruct (D1 n Hn) as (rows & out & r & [x y] & ph & cov & cor & idx & FR & LRows & _ & _ & _ & _ & _ & _ & _ & _ & _ & HP & CP & _).
  destruct (long_params _ _ _ _ _ HP) as (c0 & c1 & c2 & rest & HR).
  pose proof (phase_square _ _ _ _ _ _ _ _ HP) as SQ.
  assert (L3 : (3 <= 1000)%nat) by (apply Nat.leb_le; reflexivity).
  destruct (rms_of_map 1000 ph L3 SQ) as [l1 ER]. destruct (e_rs_of_map 1000 ph L3 SQ) as [l2 EE].
  destruct DE as (E1 & E2 & E3 & E4 & E5 & E6 & E7 & E8 & E9 & E10 & E11 & E12 & E13 & E14).
  exists {| tr_name := fa_name a; tr_tel_name := fa_tel_name a; tr_object := fa_object a; tr_date := fa_date a; tr_meanel := fa_meanel a;
            tr_i_amp := c0; tr_c_dB := c1; tr_q := c2; tr_rms := Fin (sqrt (disk_mean_square 1000 ph)); tr_e_rs := Fin (exp (- disk_mean_square 1000 ph)); tr_snr := snrs |}.
  exists rows, (x, y), ph, c0, c1, c2, rest. cbn [tr_name tr_tel_name tr_object tr_date tr_meanel tr_i_amp tr_c_dB tr_q tr_rms tr_e_rs tr_snr].
  split; [|repeat (split; [first [reflexivity|eassumption]|]); reflexivity].
  apply table_complete; [|intros r0 [<-|[]]; exact I]. constructor; [|constructor].
  exists i, rows, ("Phase-error radians " ^^ fa_name a), (map (map Fin) ph), 1000%nat, l1, l2, c0, c1, c2, rest. cbn [tr_name tr_tel_name tr_object tr_date tr_meanel tr_i_amp tr_c_dB tr_q tr_rms tr_e_rs tr_snr].
  rewrite E14. split; [exact HI|]. repeat (split; [congruence|]). split; [apply (snr_three _ _ _ SN)|]. split; [exact FR|]. split; [exact HR|]. do 3 (split; [reflexivity|]).
  split; [exact CP|]. split; [apply map_fin_square; exact SQ|]. split; [lia|]. split; assumption.
Qed.

(** Without piston and tilt an order 1 phase map is zero. *)
Lemma order1_zero K pr N xy ph : length K = 3%nat -> 0 < pr -> phase K pr false false N = Ok (xy, ph) -> disk_mean_square N ph = 0.
Proof.
  intros L P H. destruct xy as [x y].
  assert (Z : phase K pr false false N = phase [0; 0; 0] pr false false N).
  { rewrite (phase_no_piston K [0; nth 1 K 0; nth 2 K 0] pr false N); [|exact L|].
    - apply phase_no_tilt; [reflexivity|]. intros k K1 K2. destruct k as [|[|[|k]]]; try congruence; try reflexivity; destruct k; reflexivity.
    - intros k Hk. destruct k as [|[|[|k]]]; [congruence|reflexivity|reflexivity|]. rewrite nth_overflow by lia. destruct k; reflexivity. }
  rewrite Z in H. pose proof (phase_square _ _ _ _ _ _ _ _ H) as [SL SR]. pose proof (phase_bound _ _ _ _ _ _ _ _ P H) as B.
  unfold disk_mean_square. rewrite (Rsum_0 N); [unfold Rdiv; ring|]. intros j J. apply Rsum_0. intros i I. destruct (diskb N i j); [|reflexivity].
  assert (V : nth i (nth j ph []) 0 = 0); [|rewrite V; ring].
  assert (IR : In (nth j ph []) ph) by (apply nth_In; lia). assert (LR : length (nth j ph []) = N) by (apply SR; exact IR).
  assert (IV : In (nth i (nth j ph []) 0) (nth j ph [])) by (apply nth_In; lia). specialize (B _ _ IR IV). replace (py_sum (map Rabs [0; 0; 0])) with 0 in B by (cbn; rewrite !Rabs_R0; ring). rewrite Rmult_0_r in B.
  pose proof (Rabs_pos (nth i (nth j ph []) 0)). destruct (Req_dec (nth i (nth j ph []) 0) 0) as [E|E]; [exact E|]. apply Rabs_no_R0 in E. lra.
Qed.

Lemma order1_row isot orc a s s' c : file_tree s -> run (fit_zpoly orc a) s = (Ok tt, s') -> free_number a s -> configured a s c -> isot (fa_date a) = true ->
  (1 <= fa_order_max a)%nat -> 0 < tel_pr (fa_tel a) ->
  exists j, (j <= 100)%nat /\ s (numbered (fit_dir a) (fa_name a) j) = None /\
    exists r, run (table_pyoof_out isot [numbered (fit_dir a) (fa_name a) j] 1) s' = (Ok (1%nat, [r]), s') /\ tr_rms r = Fin 0 /\ tr_e_rs r = Fin 1.
Proof.
  intros T R F C I O P. destruct (table_after_fit isot orc a s s' c T R F C I) as (j & J & N & H). exists j. split; [exact J|]. split; [exact N|]. cbv zeta in H.
  destruct (H 1%nat) as (r & rows & xy & ph & c0 & c1 & c2 & rest & HR & _ & _ & _ & _ & _ & _ & _ & L & _ & _ & _ & _ & HP & E1 & E2); [lia|]. exists r. split; [exact HR|].
  assert (Z : disk_mean_square 1000 ph = 0). { apply (order1_zero (skipn 5 (map parfit rows)) (tel_pr (fa_tel a)) 1000 xy ph); [|exact P|exact HP]. rewrite skipn_length, map_length, L. reflexivity. }
  rewrite Z in E1, E2. rewrite sqrt_0 in E1. rewrite Ropp_0, exp_0 in E2. split; assumption.
Qed.
