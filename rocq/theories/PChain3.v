(** A survey of three observations from which a look-up table is made. *)
From Coq Require Import String Ascii List ZArith Lia Lra Permutation.
From Verif Require Import PyBase PyLib Num MZernike MMath MAperture MRad MCore MFs MOut MAct MAux SMath SAux SOut SFit MTab STab MScript SScript SAct SAct2 SLookup SChain.
From Verif Require Import PFs PStr PFit PFit3 PParams PDemo PTab PAct4 PAct6 PAct7 PLookup PLookup2 PLookup3 PScript PMpi2 PChain PChain2.
Import ListNotations.
Open Scope R_scope.
Open Scope string_scope.
Open Scope list_scope.
Open Scope prog_scope.

Lemma coeffs_next n : coeffs (S n) = (coeffs n + n + 2)%nat.
Proof. unfold coeffs. replace ((S n + 1) * (S n + 2))%nat with ((n + 1) * (n + 2) + (n + 2) * 2)%nat by nia. rewrite Nat.div_add by lia. lia. Qed.
Lemma coeffs_3 n : (1 <= n)%nat -> (3 <= coeffs n)%nat.
Proof. intros H. unfold coeffs. apply Nat.div_le_lower_bound; nia. Qed.
Lemma default_delete (l : list R) : (6 <= length l)%nat -> np_delete l (cf_excluded default_config) = Ok (firstn 1 l ++ skipn 6 l).
Proof.
  intros L. change (cf_excluded default_config) with (map Z.of_nat [1; 2; 3; 4; 5]%nat). rewrite np_delete_nat by (cbn [In]; intros e He; lia). f_equal.
  do 6 (destruct l as [|? l]; [cbn [length] in L; lia|]). cbn. f_equal. rewrite (delete_ext 6 [1; 2; 3; 4; 5]%nat []), delete_at_nil; [reflexivity|].
  intros i Hi. cbn. do 6 (destruct i as [|i]; [lia|]). reflexivity.
Qed.
Lemma filled_length x : (1 <= length x)%nat -> length (filled x) = (5 + length x)%nat.
Proof. intros H. destruct x as [|a x]; [cbn in H; lia|]. reflexivity. Qed.
(** With a cooperative optimizer there is a solution of every order. *)
Lemma found_exists orc a n : cooperative orc -> (1 <= n)%nat -> exists p, found orc a n p /\ length p = (5 + coeffs n)%nat.
Proof.
  intros (C & _) Hn. assert (A : forall k st, (1 <= k)%nat -> length st = (5 + coeffs k)%nat -> exists out, answered orc a default_config k st out /\ length (lo_x out) = coeffs k).
  { intros k st Hk L. pose proof (coeffs_3 k Hk) as C3. assert (B : forall (b : list R) t, length b = 8%nat -> (6 <= length (b ++ repeat t (coeffs k - 3)))%nat) by (intros; rewrite app_length; lia).
    destruct (C (misfit a default_config k) (firstn 1 st ++ skipn 6 st) (firstn 1 (cf_bound_min default_config ++ repeat (-5) (coeffs k - 3)) ++ skipn 6 (cf_bound_min default_config ++ repeat (-5) (coeffs k - 3)))
      (firstn 1 (cf_bound_max default_config ++ repeat 5 (coeffs k - 3)) ++ skipn 6 (cf_bound_max default_config ++ repeat 5 (coeffs k - 3)))) as (out & E & LX & _).
    exists out. split; [|rewrite LX, app_length, firstn_length, skipn_length; lia].
    eexists _, _, _. split; [apply default_delete; lia|]. split; [apply default_delete; apply B; reflexivity|]. split; [apply default_delete; apply B; reflexivity|]. exact E. }
  induction n as [|n IH]; [lia|]. destruct n as [|n].
  - destruct (A 1%nat (cf_init default_config)) as (out & AN & L); [lia|reflexivity|]. exists (filled (lo_x out)). split; [apply found_first; exact AN|]. rewrite filled_length, L; [reflexivity|rewrite L; pose proof (coeffs_3 1 ltac:(lia)); lia].
  - destruct IH as (p & F & L); [lia|]. destruct (A (S (S n)) (p ++ repeat (1 / 10) (S n + 2))) as (out & AN & LX); [lia|rewrite app_length, repeat_length, L, (coeffs_next (S n)); lia|].
    exists (filled (lo_x out)). split; [eapply found_next; eauto|]. rewrite filled_length, LX; [reflexivity|rewrite LX; pose proof (coeffs_3 (S (S n)) ltac:(lia)); lia].
Qed.

(** Three observations at 10, 50 and 80 degrees and the old table. *)
Definition scan_at (el : R) : fits_file := {|
  ff_primary := [("FREQ", HNum 32); ("MEANEL", HNum el); ("OBJECT", HStr "3C84"); ("DATE_OBS", HStr "2026-11-17")]; ff_tables := ff_tables scan_file |}.
Definition survey (z : nat -> nat -> Z) : fs := fun q => match q with
  | [] => Some Dir
  | [c] => if String.eqb c "w" then Some Dir else if String.eqb c "d" then Some Dir else if String.eqb c "old.dat" then Some (File (Text (table_text z))) else None
  | [c; f] => if String.eqb c "d" then
      if String.eqb f "a.fits" then Some (File (Fits (scan_at 10))) else if String.eqb f "b.fits" then Some (File (Fits (scan_at 50)))
      else if String.eqb f "c.fits" then Some (File (Fits (scan_at 80))) else None
      else None
  | _ => None end.
(** The optimizer returns its starting values, the noise is low. *)
Definition survey_oracle : oracle := {| or_lsq := or_lsq demo_oracle; or_comat := or_comat demo_oracle; or_griddata := or_griddata demo_oracle; or_round2 := fun _ => Fin 300; or_draw := or_draw demo_oracle |}.
Definition survey_lookup : lookup_oracles := {|
  lk_isot := fun _ => true; lk_sort := fun t => t; lk_solve := search [[0; 0; 1 / 10]; [0; 0; 0]];
  lk_griddata := fun _ _ _ => Fin 0; lk_spline := fun _ _ m => Ok (fun _ _ => elem (Fin 0) m 0 0); lk_today := "201117"; lk_fmt := fun _ => "" |}.
Definition survey_setup : setup := effelsberg 10 "effelsberg (10 deg blockage)".
Definition constant_law : list (list R) := [0; 0; 0] :: repeat [0; 0; 1 / 10] 20.

Lemma survey_tree z : file_tree (survey z).
Proof.
  split; [reflexivity|]. intros p c H. destruct p as [|c0 [|c1 [|c2 p]]]; cbn in H.
  - reflexivity.
  - cbn. destruct (String.eqb_spec c0 "d") as [->|]; [reflexivity|congruence].
  - congruence.
  - destruct p; cbn in H; congruence.
Qed.
Lemma survey_named z : input_files [] (survey z) script_inputs ["a"; "b"; "c"].
Proof. split; [exact (proj1 script_named)|]. intros f [<-|[<-|[<-|[]]]]; discriminate. Qed.
Lemma survey_no_runs z : no_runs ["w"] (survey z).
Proof. intros c. reflexivity. Qed.
Lemma survey_usable z : usable ["w"] (survey z).
Proof. split; [reflexivity|left; reflexivity]. Qed.
Lemma survey_observed z f : In f script_inputs -> exists ob d, observed [] (survey z) f ob /\ fittable ob /\ ob_date ob = HStr d /\ In (Deg (ob_meanel ob)) demo_elevations.
Proof.
  intros [<-|[<-|[<-|[]]]]; (eexists; exists "2026-11-17"; split; [unfold observed; reflexivity|]); cbn;
    (split; [|split; [reflexivity|tauto]]);
    (split; [eexists; reflexivity|]; split; [eexists; reflexivity|]; split; [cbn; lia|];
     exists [[3]; [1]; [2]]; exists [[6]; [4]; [5]]; split; [reflexivity|]; split; [reflexivity|]; split; [cbn; lia|]; split; [cbn; lia|];
     intros [|[|[|i]]] Hi; cbn; split; try discriminate; lia).
Qed.
Lemma survey_at z el : In el [10; 50; 80] -> exists f ob, In f script_inputs /\ observed [] (survey z) f ob /\ ob_meanel ob = el.
Proof.
  intros [<-|[<-|[<-|[]]]]; [exists "/d/a.fits"|exists "d/b.fits"|exists "/d/c.fits"]; eexists; (split; [cbn; tauto|]); (split; [unfold observed; reflexivity|reflexivity]).
Qed.
Lemma survey_cooperative : cooperative survey_oracle.
Proof. exact demo_cooperative. Qed.
Lemma survey_found a n p : found survey_oracle a n p -> p = 1 / 100 :: [- (29 / 2); 7 / 5; 0; 0; 0] ++ repeat (1 / 10) (coeffs n - 1).
Proof.
  induction 1 as [out A|n p out F IH A].
  - destruct A as (x0 & lo & hi & D & _ & _ & O). apply Ok_inj in O. subst out. cbn [lo_x]. rewrite default_delete in D by (cbn; lia). apply Ok_inj in D. subst x0. reflexivity.
  - pose proof (coeffs_3 n (found_pos _ _ _ _ F)) as C3. subst p. destruct A as (x0 & lo & hi & D & _ & _ & O). apply Ok_inj in O. subst out. cbn [lo_x].
    rewrite default_delete in D by (cbn; lia). apply Ok_inj in D. subst x0. rewrite coeffs_next. cbn [firstn skipn app filled]. unfold filled. cbn [firstn skipn app]. do 6 f_equal. rewrite <- repeat_app. f_equal. lia.
Qed.
(** Each of the three observations counts. *)
Lemma survey_counts z f ob : In f script_inputs -> observed [] (survey z) f ob ->
  forall n, (1 <= n)%nat -> counts survey_oracle (batch_script ["w"]) survey_setup [] (survey z) script_inputs n ob (0 :: repeat (1 / 10) (coeffs n - 1)).
Proof.
  intros Hf Ho n Hn. destruct (survey_observed z f Hf) as (ob' & d & Ho' & FI & _). rewrite (observed_same _ _ _ _ _ Ho' Ho) in FI.
  destruct (fit_call_ok (batch_script ["w"]) [] ob survey_setup illum_parabolic eq_refl FI) as (a & CA & TM & _).
  destruct (found_exists survey_oracle a n survey_cooperative Hn) as (p & FP & _).
  assert (SN : snr_values survey_oracle a = Ok [Fin 300; Fin 300; Fin 300]).
  { destruct (PFit7.snr_values_ok survey_oracle a TM) as [sn E]. rewrite E. f_equal. clear -E. unfold snr_values in E. cbn [mapM] in E.
    repeat match type of E with bind ?x _ = Ok _ => let v := fresh "v" in let H := fresh "H" in apply bind_inv in E as (v & H & E) end.
    repeat match goal with H : bind ?x _ = Ok ?v |- _ => let w := fresh "w" in let G := fresh "G" in apply bind_inv in H as (w & G & H) | H : Ok _ = Ok _ |- _ => apply Ok_inj in H; subst end. reflexivity. }
  exists f, a, p, [Fin 300; Fin 300; Fin 300]. split; [exact Hf|]. split; [exact Ho|]. split; [exact (fit_call_inv _ _ _ _ _ CA)|]. split; [exact FP|].
  split; [rewrite (survey_found _ _ _ FP); reflexivity|]. split; [exact SN|]. split; [right; exists 300; split; [reflexivity|lra]|].
  assert (E : In (ob_name ob) ["a"; "b"; "c"]).
  { cbn [In script_inputs] in Hf. destruct Hf as [<-|[<-|[<-|[]]]]; unfold observed in Ho; cbn in Ho; apply Ok_inj in Ho; subst ob; cbn; tauto. }
  intros X. rewrite <- PLookup.offset_iff in X. cbn [In] in E. destruct E as [E|[E|[E|[]]]]; rewrite <- E in X; discriminate X.
Qed.
Lemma survey_only z ob K n : counts survey_oracle (batch_script ["w"]) survey_setup [] (survey z) script_inputs n ob K -> K = 0 :: repeat (1 / 10) (coeffs n - 1) /\ In (Deg (ob_meanel ob)) demo_elevations.
Proof.
  intros (f & a & p & sn & Hf & Ho & _ & FP & -> & _). split; [rewrite (survey_found _ _ _ FP); reflexivity|].
  destruct (survey_observed z f Hf) as (ob' & d & Ho' & _ & _ & I). rewrite (observed_same _ _ _ _ _ Ho Ho'). exact I.
Qed.
Lemma survey_three z : exists els, three_elevations els /\ forall e, In e els -> exists ob K, counts survey_oracle (batch_script ["w"]) survey_setup [] (survey z) script_inputs 5 ob K /\ e = Deg (ob_meanel ob).
Proof.
  exists demo_elevations. split; [exact demo_three|]. intros e He. cbn [demo_elevations In] in He.
  assert (X : exists el, In el [10; 50; 80] /\ e = Deg el) by (destruct He as [<-|[<-|[<-|[]]]]; eexists; (split; [|reflexivity]); cbn; tauto).
  destruct X as (el & Hel & ->). destruct (survey_at z el Hel) as (f & ob & Hf & Ho & <-). exists ob. eexists. split; [apply (survey_counts z f ob Hf Ho); lia|reflexivity].
Qed.
Lemma constant_length i : (i < 21)%nat -> length (nth i constant_law []) = 3%nat.
Proof. intros H. do 21 (destruct i as [|i]; [reflexivity|]). lia. Qed.
Lemma constant_follows z ob K i : counts survey_oracle (batch_script ["w"]) survey_setup [] (survey z) script_inputs 5 ob K -> (3 <= i < 21)%nat ->
  grav_deformation (nth i constant_law []) (Deg (ob_meanel ob)) = Ok (nth i K 0).
Proof.
  intros C H. destruct (survey_only z ob K 5 C) as [-> _]. replace (nth i constant_law []) with [0; 0; 1 / 10].
  - rewrite grav_ok. f_equal. replace (nth i (0 :: repeat (1 / 10) (coeffs 5 - 1)) 0) with (1 / 10); [ring|]. do 21 (destruct i as [|i]; [try lia; reflexivity|]). lia.
  - do 21 (destruct i as [|i]; [try lia; reflexivity|]). lia.
Qed.
Lemma survey_solved z us i : (forall ob K, In (ob, K) us -> counts survey_oracle (batch_script ["w"]) survey_setup [] (survey z) script_inputs 5 ob K) -> (i < 21)%nat ->
  exists x, lk_solve survey_lookup (residual_grav (map (fun u => nth i (snd u) 0) us) (map (fun u => Deg (ob_meanel (fst u))) us)) [1 / 10; 1 / 10; 1 / 10] = Ok x /\ length x = 3%nat.
Proof.
  intros H Hi. set (c := if Nat.eqb i 0 then 0 else 1 / 10).
  assert (E : map (fun u => nth i (snd u) 0) us = map (fun _ => c) us).
  { apply map_ext_in. intros [ob K] Hu. cbn [snd]. destruct (survey_only z ob K 5 (H _ _ Hu)) as [-> _]. unfold c. do 21 (destruct i as [|i]; [reflexivity|]). lia. }
  apply (search_finds [[0; 0; 1 / 10]; [0; 0; 0]] _ [1 / 10; 1 / 10; 1 / 10] [0; 0; c]); [unfold c; destruct (Nat.eqb i 0); cbn; tauto|reflexivity|].
  apply residual_grav_zero. rewrite E. clear. induction us as [|u us IH]; [reflexivity|]. cbn [map mapM]. rewrite grav_ok. cbn [bind]. rewrite IH. cbn [bind]. repeat f_equal. ring.
Qed.

Lemma survey_runs z : exists s1, run (batch survey_oracle (batch_script ["w"]) [] script_inputs) (survey z) = (Ok tt, s1) /\ (exists runs, glob_000 s1 ["w"; "pyoof_out"] runs) /\
  forall runs, glob_000 s1 ["w"; "pyoof_out"] runs -> exists s2, run (create_lookup survey_lookup (demo_act 5 3) runs ["w"; "pyoof_out"] ["old.dat"] ["new"]) s1 = (Ok tt, s2).
Proof.
  apply (chain_completes survey_oracle (batch_script ["w"]) survey_setup [] script_inputs ["a"; "b"; "c"] illum_parabolic (survey z) survey_lookup (demo_act 5 3) ["old.dat"] ["new"] z).
  - apply survey_tree.
  - reflexivity.
  - cbn. lia.
  - cbn. lia.
  - cbn. lia.
  - reflexivity.
  - exact survey_cooperative.
  - apply survey_usable.
  - cbn. lra.
  - apply survey_named.
  - repeat constructor; cbn; intuition discriminate.
  - intros stem t [<-|[<-|[<-|[]]]]; discriminate.
  - apply survey_no_runs.
  - intros f Hf. destruct (survey_observed z f Hf) as (ob & d & H1 & H2 & H3 & _). exists ob, d. auto.
  - intros t. apply Permutation_refl.
  - cbn. lra.
  - cbn. lra.
  - reflexivity.
  - destruct (survey_at z 10) as (f & ob & Hf & Ho & _); [cbn; tauto|]. exists ob. eexists. apply (survey_counts z f ob Hf Ho). cbn. lia.
  - intros us i H Hi. exact (survey_solved z us i H Hi).
  - intros x m. eexists. reflexivity.
  - intros [t E]. discriminate E.
  - right. exists [], "new". auto.
  - intros f Hf. cbn. destruct (String.eqb_spec "new" "w"); [discriminate|]. discriminate.
Qed.
