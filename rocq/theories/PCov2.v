(** Fits whose covariances exist. *)
From Coq Require Import String List ZArith Lia Lra Sorted Classical.
From Verif Require Import PyBase PyLib Sums Num MZernike MMath MAperture MCore MFs MOut MCoMat SOut SFit SMat SBest SRecover SCov PParams PFs PFit PFit2 PFit3 PFit4 PFit5 PFit6 PFit7 PFit9 PMat PCoMat PBest PRecover PCov.
Import ListNotations.
Open Scope R_scope.
Open Scope string_scope.
Open Scope list_scope.

Lemma in_nth_ne (l : list R) t : In t l -> t <> 0 -> exists k, (k < length l)%nat /\ nth k l 0 <> 0.
Proof. intros I H. apply (In_nth _ _ 0) in I. destruct I as (k & Hk & E). exists k. split; [exact Hk|congruence]. Qed.
Lemma unit_quadratic n A i : (i < n)%nat -> quadratic n A (fun j => if Nat.eqb j i then 1 else 0) = at_ A i i.
Proof.
  intros Hi. unfold quadratic.
  assert (S1 : forall m f, (i < m)%nat -> Rsum m (fun j => (if Nat.eqb j i then 1 else 0) * f j) = f i).
  { induction m as [|m IH]; intros f Hm; [lia|]. rewrite Rsum_Sr. destruct (Nat.eqb_spec m i) as [->|Hne].
    - rewrite (Rsum_ext i _ (fun _ => 0)) by (intros j Hj; destruct (Nat.eqb_spec j i); [lia|ring]). rewrite (Rsum_extend 0 i) by (try lia; reflexivity). cbn [Rsum]. ring.
    - rewrite IH by lia. ring. }
  rewrite (Rsum_ext n _ (fun j => (if Nat.eqb j i then 1 else 0) * at_ A j i)); [exact (S1 n (fun j => at_ A j i) Hi)|]. intros j Hj.
  rewrite (Rsum_ext n _ (fun l => (if Nat.eqb l i then 1 else 0) * ((if Nat.eqb j i then 1 else 0) * at_ A j l))) by (intros l Hl; ring). rewrite S1 by exact Hi. reflexivity.
Qed.
Lemma own_value rs J k : matrix (length rs) k J -> (k < length rs)%nat -> independent_columns (length rs) k J -> (exists t, In t rs /\ t <> 0) ->
  exists cov cor, co_matrices rs J k = Ok (cov, cor) /\ covariance_of J rs k cov cor.
Proof.
  intros M L I (t & It & Ht). destruct (comat_ok rs J k (length rs) k M ltac:(lia) I L (in_nth_ne rs t It Ht)) as (cov & cor & E & H1 & H2 & H3 & H4 & H5 & H6 & H7 & H8). exists cov, cor. split; [exact E|].
  repeat (split; [assumption|]). split; [|repeat (split; [assumption|]); assumption].
  intros i Hi. rewrite <- (unit_quadratic k cov i Hi). apply H5. exists i. split; [exact Hi|]. rewrite Nat.eqb_refl. lra.
Qed.
Lemma regular_responsive orc a c : own_covariances orc -> regular_answers orc a c -> responsive orc a c.
Proof.
  intros HO (H & HD). split; [|exact HD]. intros n x0 lo hi Hn Lx Llo Lhi. destruct (H n x0 lo hi Hn Lx Llo Lhi) as (out & E & L & L3 & (M & Lf) & I & T).
  destruct (own_value (lo_fun out) (lo_jac out) (length (lo_x out)) M Lf I T) as (cov & cor & EC & (M1 & M2 & _)). exists out, cov, cor. split; [exact E|]. split; [exact L|]. split; [exact L3|]. rewrite L in EC, M1, M2.
  split; [rewrite HO; exact EC|]. destruct M1 as [_ M1], M2 as [_ M2]. rewrite Forall_forall in M1, M2. split; assumption.
Qed.
Lemma own_completes orc a s c : wf s -> usable (fit_dir a) s -> free_number a s -> configured a s c -> valid_config c -> own_covariances orc -> regular_answers orc a c ->
  0 < tel_pr (fa_tel a) -> three_maps a -> exists s', run (fit_zpoly orc a) s = (Ok tt, s').
Proof. intros W Hu Hf Hc Hv HO HR. exact (fit_responds orc a s c W Hu Hf Hc Hv (regular_responsive orc a c HO HR)). Qed.

Lemma own_stored orc a s s' c : wf s -> run (fit_zpoly orc a) s = (Ok tt, s') -> free_number a s -> configured a s c -> valid_config c -> (length (cf_excluded c) < 8)%nat ->
  own_covariances orc -> sized_answers orc -> (forall n start out, (1 <= n <= fa_order_max a)%nat -> answered orc a c n start out -> overdetermined out) ->
  exists j, (j <= 100)%nat /\ s (numbered (fit_dir a) (fa_name a) j) = None /\
  forall n, (1 <= n <= fa_order_max a)%nat -> let d := numbered (fit_dir a) (fa_name a) j in exists r J idx cov cor,
    csv_file s' d ("res_n" ^^ dec n ^^ ".csv") ("Residual " ^^ fa_name a) (A2 (map (map Fin) r)) /\
    csv_file s' d ("jac_n" ^^ dec n ^^ ".csv") ("Jacobian " ^^ fa_name a) (A2 (map (map Fin) J)) /\
    csv_file s' d ("cov_n" ^^ dec n ^^ ".csv") ("Variance-Covariance matrix (first row fitted parameters idx) " ^^ fa_name a) (A2 (map (map Fin) (idx :: cov))) /\
    csv_file s' d ("corr_n" ^^ dec n ^^ ".csv") ("Correlation matrix (first row fitted parameters idx) " ^^ fa_name a) (A2 (map (map Fin) (idx :: cor))) /\
    matrix (length (concat r)) (length idx) J /\ (0 < length idx < length (concat r))%nat /\ independent_columns (length (concat r)) (length idx) J /\
    (exists t, In t (concat r) /\ t <> 0) /\ covariance_of J (concat r) (length idx) cov cor.
Proof.
  intros W Hr Hf Hc Hv H8 HO HS HD. destruct (stored_together orc a s s' c W Hr Hf Hc) as (j & snrs & Hj & Hn & _ & _ & H). exists j. split; [exact Hj|]. split; [exact Hn|].
  intros n Hn1 d. destruct (H n Hn1) as (rows & out & r & xy & ph & cov & cor & idx & G1 & G2 & G3 & G4 & G5 & G6 & G7 & G8 & G9 & G10 & G11 & G12 & G13 & G14 & G15 & G16 & G17).
  exists r, (lo_jac out), idx, cov, cor. repeat (split; [assumption|]). pose proof Hv as (V1 & V2 & V3 & V4 & ex & EX & Hs & He). pose proof (coeffs_3 n (proj1 Hn1)) as N3.
  destruct (HD n _ out Hn1 G4) as (M & L). pose proof G4 as (x0 & lo & hi & D0 & _ & _ & Eo). pose proof (HS _ _ _ _ _ Eo) as Lo. rewrite EX in D0, G14, H8. rewrite map_length in H8.
  rewrite np_delete_nat in D0 by (intros i Hi; specialize (He i Hi); rewrite map_length; lia). rewrite np_delete_nat in G14 by (intros i Hi; specialize (He i Hi); rewrite map_length, seq_length; lia). apply Ok_inj in D0, G14.
  pose proof (delete_at_length (map parinit rows) 0 ex Hs ltac:(intros i Hi; specialize (He i Hi); rewrite map_length; lia)) as L1.
  pose proof (delete_at_length (map INR (seq 0 (length rows))) 0 ex Hs ltac:(intros i Hi; specialize (He i Hi); rewrite map_length, seq_length; lia)) as L2.
  rewrite D0, map_length in L1. rewrite G14, map_length, seq_length in L2. assert (LI : length (lo_x out) = length idx) by lia. rewrite LI in M, L. rewrite <- G7 in M, L.
  split; [exact M|]. split; [lia|]. rewrite HO, <- G7 in G15.
  assert (I : independent_columns (length (concat r)) (length idx) (lo_jac out)).
  { apply NNPP. intros NI. rewrite (comat_singular _ _ _ _ _ M ltac:(lia) L NI) in G15. discriminate. }
  assert (T : exists t, In t (concat r) /\ t <> 0).
  { apply NNPP. intros NT. rewrite (comat_exact _ _ _ _ _ M ltac:(lia) ltac:(lia) L) in G15; [discriminate|]. intros k Hk. apply NNPP. intros X. apply NT. exists (nth k (concat r) 0). split; [apply nth_In, Hk|exact X]. }
  split; [exact I|]. split; [exact T|]. destruct (own_value _ _ _ M L I T) as (cov' & cor' & E & C). rewrite G15 in E. apply Ok_inj in E. injection E as <- <-. exact C.
Qed.

(** ** An optimizer that answers with its candidate, its residual and difference quotients *)
Definition quotients (f : list R -> res (list R)) (x : list R) (h : R) (r : list R) : list (list R) :=
  map (fun k => map (fun j => (component (along f x j (nth j x 0 + h)) k - nth k r 0) / h) (seq 0 (length x))) (seq 0 (length r)).
Definition careful (orc : oracle) (x : list R) (h : R) : oracle := {|
  or_lsq := fun f x0 _ _ => if Nat.eqb (length x0) (length x) then bind (f x) (fun r => Ok {| lo_x := x; lo_fun := r; lo_jac := quotients f x h r; lo_grad := [] |}) else Err ValueError;
  or_comat := co_matrices; or_griddata := or_griddata orc; or_round2 := or_round2 orc; or_draw := or_draw orc |}.
Lemma quotients_matrix f x h r : matrix (length r) (length x) (quotients f x h r).
Proof.
  unfold quotients. split; [rewrite map_length, seq_length; reflexivity|]. apply Forall_forall. intros row I. apply in_map_iff in I. destruct I as (k & <- & _). rewrite map_length, seq_length. reflexivity.
Qed.
Lemma quotients_at f x h r k j : (k < length r)%nat -> (j < length x)%nat -> at_ (quotients f x h r) k j = (component (along f x j (nth j x 0 + h)) k - nth k r 0) / h.
Proof.
  intros Hk Hj. unfold at_, quotients.
  rewrite (nth_indep _ [] (map (fun j => (component (along f x j (nth j x 0 + h)) 0 - nth 0 r 0) / h) (seq 0 (length x)))) by (rewrite map_length, seq_length; exact Hk).
  rewrite (map_nth (fun k => map (fun j => (component (along f x j (nth j x 0 + h)) k - nth k r 0) / h) (seq 0 (length x)))). rewrite seq_nth by exact Hk. cbn [Nat.add].
  rewrite (nth_indep _ 0 ((component (along f x 0 (nth 0 x 0 + h)) k - nth k r 0) / h)) by (rewrite map_length, seq_length; exact Hj).
  rewrite (map_nth (fun j => (component (along f x j (nth j x 0 + h)) k - nth k r 0) / h)). rewrite seq_nth by exact Hj. reflexivity.
Qed.
Lemma careful_sized orc x h : sized_answers (careful orc x h).
Proof.
  intros f x0 lo hi out H. cbn [or_lsq careful] in H. destruct (Nat.eqb_spec (length x0) (length x)) as [E|]; [|discriminate]. destruct (f x); [|discriminate]. cbn [bind] in H. apply Ok_inj in H. subst out. cbn [lo_x]. symmetry. exact E.
Qed.
Lemma careful_answer orc x h a c n start out : answered (careful orc x h) a c n start out -> exists r, misfit a c n x = Ok r /\ out = {| lo_x := x; lo_fun := r; lo_jac := quotients (misfit a c n) x h r; lo_grad := [] |}.
Proof.
  intros (x0 & lo & hi & _ & _ & _ & H). cbn [or_lsq careful] in H. destruct (Nat.eqb_spec (length x0) (length x)) as [E|]; [|discriminate]. destruct (misfit a c n x) as [r|]; [|discriminate]. cbn [bind] in H. apply Ok_inj in H. subst out. eauto.
Qed.
Lemma careful_differences f x h r : f x = Ok r -> h <> 0 -> (forall j, nth j x 0 + h <> 0) -> differences f x (quotients f x h r).
Proof.
  intros E Hh Hx. exists (fun _ => h). split; [intros j; split; [exact Hh|apply Hx]|]. intros k j Hk Hj. rewrite (proj1 (quotients_matrix f x h r)) in Hk. rewrite quotients_at by assumption. rewrite E. reflexivity.
Qed.
