(** fit_zpoly completes when its external parts do. *)
From Coq Require Import String Ascii List Sorted FunctionalExtensionality.
From Verif Require Import PyBase PyLib Num MZernike SZernike PEnum MMath MAperture PPhase MRad MCore PParams MFs MOut PFs PStr PFit SOut SFit PFit2 PFit3 PFit4 PFit5.
Import ListNotations.
Open Scope R_scope.
Open Scope string_scope.
Open Scope list_scope.
Open Scope prog_scope.


Lemma default_valid : valid_config default_config.
Proof.
  repeat split. exists [1; 2; 3; 4; 5]%nat. split; [reflexivity|]. split.
  - repeat constructor; lia.
  - simpl. intros e H. lia.
Qed.

(** The run directory: a directory whose only sub-directory is plots. *)
Definition inv (d : path) (s : fs) : Prop :=
  s d = Some Dir /\ (s (d ++ ["plots"]) = None \/ s (d ++ ["plots"]) = Some Dir) /\
  forall r, r <> [] -> r <> ["plots"] -> s (d ++ r) <> Some Dir.
Lemma app_ne_self {A} (d r : list A) : r <> [] -> d ++ r <> d.
Proof. intros H E. apply (f_equal (@length _)) in E. rewrite app_length in E. destruct r; [congruence|]. simpl in E. lia. Qed.
Lemma inv_upd_file d s r dc : inv d s -> r <> [] -> r <> ["plots"] -> inv d (upd s (d ++ r) (File dc)).
Proof.
  intros (H1 & H2 & H3) Hr Hp. repeat split.
  - rewrite upd_other by (apply not_eq_sym, app_ne_self, Hr). exact H1.
  - rewrite upd_other; [exact H2|]. intros E. apply app_inv_head in E. congruence.
  - intros q Hq Hq2. unfold upd. destruct (path_eq_dec (d ++ q) (d ++ r)); [discriminate|apply H3; assumption].
Qed.
Lemma inv_upd_plots d s : inv d s -> inv d (upd s (d ++ ["plots"]) Dir).
Proof.
  intros (H1 & H2 & H3). repeat split.
  - rewrite upd_other by (apply not_eq_sym, app_ne_self; discriminate). exact H1.
  - right. apply upd_same.
  - intros q Hq Hq2. rewrite upd_other; [apply H3; assumption|]. intros E. apply app_inv_head in E. congruence.
Qed.
Lemma inv_write d s f dc : inv d s -> f <> "plots" -> run (write_file (d ++ [f]) dc) s = (Ok tt, upd s (d ++ [f]) (File dc)) /\ inv d (upd s (d ++ [f]) (File dc)).
Proof.
  intros H Hf. split.
  - apply write_file_in_dir; [apply H|]. apply H; [discriminate|congruence].
  - apply inv_upd_file; [exact H|discriminate|congruence].
Qed.
Lemma inv_save_all name d l s : inv d s -> (forall f h x, In (f, h, x) l -> f <> "plots") ->
  exists s', run (save_all name d l) s = (Ok tt, s') /\ inv d s'.
Proof.
  revert s. induction l as [|[[f h] x] t IH]; intros s H Hl; [exists s; auto|]. cbn [save_all].
  destruct (inv_write d s f (Csv (h ^^ " " ^^ name) x) H) as [E H']; [eapply Hl; left; reflexivity|].
  rewrite run_bind, E. apply IH; [exact H'|]. intros f' h' x' Hin. eapply Hl. right. exact Hin.
Qed.
Lemma inv_write_pdfs d l s : inv d s -> s (d ++ ["plots"]) = Some Dir -> exists s', run (write_pdfs (d ++ ["plots"]) l) s = (Ok tt, s').
Proof.
  revert s. induction l as [|f t IH]; intros s H Hp; [exists s; reflexivity|]. cbn [write_pdfs]. rewrite run_bind.
  rewrite write_file_in_dir; [|exact Hp|rewrite <- app_assoc; apply H; discriminate].
  apply IH.
  - rewrite <- app_assoc. apply inv_upd_file; [exact H|discriminate|discriminate].
  - rewrite upd_other by (apply not_eq_sym, app_ne_self; discriminate). exact Hp.
Qed.
Lemma read_all_ok d l s : (forall f, In f l -> exists dc, s (d ++ [f]) = Some (File dc)) -> run (read_all d l) s = (Ok tt, s).
Proof.
  revert s. induction l as [|f t IH]; intros s H; [reflexivity|]. cbn [read_all]. rewrite run_bind, run_callE. cbn [exec].
  destruct (H f (or_introl eq_refl)) as [dc ->]. apply IH. intros g Hg. apply H. right. exact Hg.
Qed.

Lemma reshape3_ok l : (length l mod 3 = 0)%nat -> exists m, reshape3 l = Ok m.
Proof. intros H. unfold reshape3. rewrite H. simpl. eauto. Qed.
Lemma vstack_ok h m : (forall row, In row m -> length row = length h) -> vstack h m = Ok (h :: m).
Proof.
  intros H. unfold vstack. replace (forallb _ m) with true; [reflexivity|]. symmetry. apply forallb_forall.
  intros r Hr. apply Nat.eqb_eq, H, Hr.
Qed.
Lemma delete_ok {A} (v : list A) ex : Sorted lt ex -> (forall e, In e ex -> (e < 8)%nat) -> (8 <= length v)%nat ->
  exists w, np_delete v (map Z.of_nat ex) = Ok w /\ (length w + length ex = length v)%nat.
Proof.
  intros Hs He Hl. exists (delete_at 0 ex v). split.
  - apply np_delete_nat. intros e H. specialize (He e H). lia.
  - apply delete_at_length; [exact Hs|]. intros e H. specialize (He e H). lia.
Qed.

Definition has_file (s : fs) (q : path) : Prop := exists dc, s q = Some (File dc).
Lemma writes_has_file d s l q : (forall r nd, In (r, nd) l -> exists dc, nd = File dc) ->
  has_file s q \/ (exists r, In r (map fst l) /\ q = d ++ r) -> has_file (apply_writes s (map (under d) l)) q.
Proof.
  intros Hl Hq. destruct (in_dec path_eq_dec q (map fst (map (under d) l))) as [Hin|Hin].
  - destruct (apply_writes_some s _ q Hin) as (nd & Hin2 & E). apply in_map_iff in Hin2. destruct Hin2 as ([r nd'] & E2 & Hin2).
    unfold under in E2. simpl in E2. inversion E2; subst. destruct (Hl _ _ Hin2) as [dc ->]. exists dc. exact E.
  - destruct Hq as [[dc Hq]|(r & Hr & ->)].
    + exists dc. rewrite apply_writes_other by exact Hin. exact Hq.
    + exfalso. apply Hin. rewrite under_names. apply in_map. exact Hr.
Qed.

Lemma cooperative_responsive orc a c : cooperative orc -> responsive orc a c.
Proof.
  intros (H1 & H2 & H3). split; [|intros _ n _; apply H3]. intros n x0 lo hi _ _ _ _. destruct (H1 (misfit a c n) x0 lo hi) as (out & E & L1 & L2).
  destruct (H2 (lo_fun out) (lo_jac out) (length x0)) as (cov & cor & E' & L3 & L4). exists out, cov, cor. tauto.
Qed.
Lemma fit_order_progress orc a c snrs d n s init :
  responsive orc a c -> valid_config c -> 0 < tel_pr (fa_tel a) -> (1 <= n <= fa_order_max a)%nat -> inv d s ->
  (n <> 1%nat -> forall f, In f data_files -> has_file s (d ++ [f])) ->
  run (start_params c (fa_fit_previous a) d n) s = (Ok init, s) -> length init = (5 + n_coeff n)%nat ->
  exists s', run (fit_order orc a c snrs d n) s = (Ok tt, s').
Proof.
  intros (Hlsq & Hdr) (Hci & Hcf & Hcl & Hch & ex & Hex & Hs & He) Hpr Hn0 Hinv Hdata Hst Hlen. pose proof (proj1 Hn0) as Hn.
  pose proof (n_coeff_ge3 n Hn) as H3.
  unfold fit_order. cbv zeta. rewrite run_bind, Hst.
  destruct (delete_ok init ex Hs He) as (x0 & E1 & L1); [lia|].
  destruct (delete_ok (cf_bound_min c ++ repeat (-5)%R (n_coeff n - 3)) ex Hs He) as (lo & E2 & L2); [rewrite app_length, repeat_length; lia|].
  destruct (delete_ok (cf_bound_max c ++ repeat 5%R (n_coeff n - 3)) ex Hs He) as (hi & E3 & L3); [rewrite app_length, repeat_length; lia|].
  destruct (delete_ok (map INR (seq 0 (n_coeff n + 5))) ex Hs He) as (idx & E8 & L8); [rewrite map_length, seq_length; lia|].
  rewrite map_length, seq_length in L8. rewrite Hex.
  rewrite E1, E2, E3, E8. cbn [lift bindP].
  rewrite app_length, repeat_length in L2, L3.
  destruct (Hlsq n x0 lo hi Hn0) as (out & cov & cor & E4 & Lo1 & Lo2 & E5 & Hcov & Hcor); [rewrite Hex, map_length; change (coeffs n) with (n_coeff n); lia|lia|lia|].
  match goal with |- context [or_lsq orc ?F x0 lo hi] => change F with (fun p => residual (fa_illum a) (fa_tel a) (cf_fixed c) (map Z.of_nat ex) (n_coeff n) p (fa_beam a) (fa_u a) (fa_v a) (fa_d_z a) (fa_wavel a) (fa_resolution a) (fa_box_factor a)) end.
  rewrite <- Hex. change (or_lsq orc (misfit a c n) x0 lo hi = Ok out) with (or_lsq orc (objective a c n) x0 lo hi = Ok out) in E4. unfold objective in E4. rewrite E4. rewrite Hex. cbn [lift bindP].
  (* the completed vector *)
  destruct (undelete ex 0 (lo_x out) Hs) as (v & Hv1 & Hv2).
  { intros e Hin. specialize (He e Hin). lia. }
  destruct (params_round_trip (cf_fixed c) ex (n_coeff n) v Hcf Hs He H3) as (p & w & G1 & _ & G3 & G4 & _); [lia|].
  rewrite np_delete_nat in G1 by (intros e Hin; specialize (He e Hin); lia). apply Ok_inj in G1. rewrite Hv2 in G1. subst p.
  rewrite G3. cbn [lift bindP].
  destruct (reshape3_ok (lo_fun out) Lo2) as (rr & ->). cbn [lift bindP].
  rewrite E5. cbn [lift bindP fst snd].
  rewrite !vstack_ok by (intros row Hr; rewrite ?(Hcov row), ?(Hcor row) by exact Hr; lia). cbn [lift bindP].
  destruct (phase_ok (skipn 5 w) (tel_pr (fa_tel a)) false false 1000 n) as (phi & Eph & _).
  { rewrite skipn_length, G4, <- ln_list_length, ln_list_swap, map_length. pose proof (nl_list_length_nat n) as HN. lia. }
  { exact Hn. }
  { exact Hpr. }
  rewrite Eph. cbn [lift bindP]. rewrite run_bind.
  (* writes *)
  unfold store_data_ascii. unfold make_table. rewrite param_names_length, ln_list_length, G4, Hlen, Nat.eqb_refl. cbn [andb lift bindP].
  match goal with |- context [write_file (d ++ [fitpar_name n]) ?dc] => destruct (inv_write d s (fitpar_name n) dc Hinv) as [Ew Hi1]; [discriminate|] end.
  rewrite Ew. clear Ew. rewrite run_bind.
  match goal with |- context [run (if Nat.eqb n 1 then ?P else Ret tt) ?S] =>
    assert (X : exists s2, run (if Nat.eqb n 1 then P else Ret tt) S = (Ok tt, s2) /\ inv d s2 /\
       (n = 1%nat -> has_file s2 (d ++ ["pyoof_info.yml"])) /\ forall q, has_file S q -> has_file s2 q) end.
  { destruct (Nat.eqb n 1) eqn:En.
    - match goal with |- context [write_file (d ++ ["pyoof_info.yml"]) ?dc] => destruct (inv_write d _ "pyoof_info.yml" dc Hi1) as [Ew Hi2]; [discriminate|] end.
      eexists. split; [exact Ew|]. split; [exact Hi2|]. split.
      + intros _. eexists. apply upd_same.
      + intros q [dc Hq]. unfold has_file, upd. destruct (path_eq_dec q (d ++ ["pyoof_info.yml"])); eauto.
    - apply Nat.eqb_neq in En. eexists. split; [reflexivity|]. split; [exact Hi1|]. split; [congruence|auto]. }
  destruct X as (s2 & -> & Hi2 & Hinfo & Hpres).
  match goal with |- context [store_data_csv (fa_name a) d n ?L] => set (data := L) in * end.
  rewrite run_bind.
  destruct (inv_save_all (fa_name a) d (csv_rows n data) s2 Hi2) as (s3 & E9 & Hi3).
  { intros f h x Hin Ef. subst f. apply csv_rows_in in Hin. apply (plots_not_plain n). right. right. exact Hin. }
  assert (E9' : run (store_data_csv (fa_name a) d n data) s2 = (Ok tt, s3)) by exact E9.
  rewrite E9'. apply run_save_all in E9.
  destruct (fa_make_plots a); [|eexists; reflexivity]. specialize (Hdr eq_refl n Hn0).
  unfold plot_fit_path. cbv zeta. rewrite run_bind, run_call. cbn [exec fst snd]. rewrite run_bind.
  assert (Epl : run (if match s3 (d ++ ["plots"]) with Some _ => true | None => false end then Ret tt else makedirs (d ++ ["plots"]) false) s3
              = (Ok tt, upd s3 (d ++ ["plots"]) Dir)).
  { destruct Hi3 as (I1 & I2 & I3). destruct I2 as [I2|I2]; rewrite I2.
    - apply run_makedirs_new; assumption.
    - simpl. rewrite upd_id by exact I2. reflexivity. }
  rewrite Epl. rewrite run_bind.
  assert (Hfile : forall q, has_file s2 q \/ (exists r, In r (map fst (csv_writes (fa_name a) (csv_rows n data))) /\ q = d ++ r) -> has_file s3 q).
  { intros q Hq. rewrite E9. apply writes_has_file; [|exact Hq].
    intros r nd Hin. unfold csv_writes in Hin. apply in_map_iff in Hin. destruct Hin as ([[f0 h] x] & E & _). inversion E. eauto. }
  assert (Hnm : map fst (csv_writes (fa_name a) (csv_rows n data)) = map (fun f => [f]) (if Nat.eqb n 1 then csv_names n else skipn 3 (csv_names n))).
  { unfold csv_writes, csv_rows, data. rewrite map_map. destruct (Nat.eqb n 1); reflexivity. }
  assert (Hup : forall q, q <> d ++ ["plots"] -> has_file s3 q -> has_file (upd s3 (d ++ ["plots"]) Dir) q).
  { intros q Hq [dc E]. exists dc. rewrite upd_other by exact Hq. exact E. }
  rewrite read_all_ok.
  2:{ intros f Hf. apply Hup.
      { intros E. apply app_inv_head in E. inversion E; subst f. cbn [In] in Hf. unfold fitpar_name in Hf. str_in Hf. }
      apply Hfile. rewrite Hnm. destruct (Nat.eqb n 1) eqn:En.
      - apply Nat.eqb_eq in En. destruct (string_dec f (fitpar_name n)) as [->|F1].
        { left. apply Hpres. eexists. apply upd_same. }
        destruct (string_dec f "pyoof_info.yml") as [->|F2]; [left; auto|].
        right. exists [f]. split; [|reflexivity]. apply in_map_iff. exists f. split; [reflexivity|]. unfold csv_names. cbn [In] in Hf |- *. intuition congruence.
      - apply Nat.eqb_neq in En. destruct (string_dec f (fitpar_name n)) as [->|F1].
        { left. apply Hpres. eexists. apply upd_same. }
        destruct (in_dec string_dec f data_files) as [F2|F2].
        { left. apply Hpres. destruct (Hdata En f F2) as [dc E]. exists dc. rewrite upd_other; [exact E|].
          intros E22. apply app_inv_head in E22. congruence. }
        right. exists [f]. split; [|reflexivity]. apply in_map_iff. exists f. split; [reflexivity|]. unfold csv_names. cbn [In skipn] in Hf |- *. unfold data_files in F2. cbn [In] in F2.
        intuition congruence. }
  rewrite Hdr. cbn [lift bindP].
  apply inv_write_pdfs; [apply inv_upd_plots, Hi3|apply upd_same].
Qed.
