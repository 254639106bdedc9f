(** Any number of fits at the same time, with crashes. *)
From Coq Require Import String Ascii List Sorted FunctionalExtensionality Lia.
From Verif Require Import PyBase PyLib Num MZernike SZernike PEnum MMath MAperture PPhase MRad MCore PParams MFs MOut MScript PFs PStr PFit SOut SFit SPool PFit2 PFit3 PFit4 PFit5 PFit6 PFit7 PFit8 PConc PConc2 PCrash PDemo PMpi.
Import ListNotations.

Open Scope nat_scope.
Open Scope string_scope.
Open Scope list_scope.
Open Scope prog_scope.

(** The files of the fit are those of the fit alone, cut after some number of calls. *)
Definition alike (orc : oracle) (a : fit_args) (s x : fs) : Prop := exists k, agree (region a) x (snd (steps k (fit_zpoly orc a) s)).
Definition guarP (orc : oracle) (a : fit_args) (s x y : fs) : Prop := guar a x y /\ alike orc a s y.
Lemma before_alike orc a s x : before a s x -> alike orc a s x.
Proof. intros (B & _). exists 0%nat. intros q Hq. apply B. left. exact Hq. Qed.

Lemma solo_steps orc a s c : usable (fit_dir a) s -> fst (run (load_config (fa_config_file a)) s) = Ok c ->
  exists m, steps m (fit_zpoly orc a) s = (after_base orc a c, upd s (base_of a) Dir).
Proof.
  intros [Hw Hb] El. unfold fit_zpoly. cbv zeta. fold (fit_dir a).
  assert (L : exists m, forall (K : config -> prog unit), steps m (bindP (load_config (fa_config_file a)) K) s = (K c, s)).
  { unfold load_config in *. destruct (fa_config_file a) as [p|].
    - exists 1%nat. intros K. cbn [callE bindP steps exec] in *. cbn [run exec fst] in El. destruct (s p) as [[|[]]|]; cbn in El |- *; try discriminate El. injection El as <-. reflexivity.
    - exists 0%nat. intros K. cbn in El |- *. injection El as <-. reflexivity. }
  destruct L as [m L].
  assert (B : exists m', steps m' (bindP (pick_dir (fit_dir a) (fa_name a)) (fun d => snrs <- lift (snr_values orc a) ;; fit_orders orc a c snrs d (seq 1 (fa_order_max a)))) s = (after_base orc a c, upd s (base_of a) Dir)).
  { unfold pick_dir, after_base. cbv zeta. fold (base_of a). fold (base_of a) in Hb. destruct Hb as [Hb|Hb].
    - exists (1 + 2)%nat. rewrite steps_add.
      assert (E1 : steps 1 (d <- (b <- call (Exists (base_of a)) ;; (if b then Ret tt else makedirs (base_of a) true) ;;; choose_dir (base_of a) (fa_name a) (seq 0 101) None) ;;
        snrs <- lift (snr_values orc a) ;; fit_orders orc a c snrs d (seq 1 (fa_order_max a))) s =
        (bindP (makedirs (fit_dir a ++ ["pyoof_out"]) true) (fun _ => after_base orc a c), s)).
      { cbn [call bindP steps exec]. rewrite Hb. rewrite bind_assoc. reflexivity. }
      rewrite E1. rewrite mk_steps_first by assumption. reflexivity.
    - exists 1%nat. cbn [call bindP steps exec]. rewrite Hb. cbn [bindP steps]. rewrite upd_id by exact Hb. reflexivity. }
  destruct B as [m' B]. exists (m + m')%nat. rewrite steps_add, L. exact B.
Qed.

Lemma sure_fitP_from orc a s sa : wf s -> usable (fit_dir a) s -> (cfg_of a (base_of a) -> False) ->
  ((forall j, (j <= 100)%nat -> s (numbered (fit_dir a) (fa_name a) j) <> None) -> s (numbered (fit_dir a) (fa_name a) 100) = Some Dir) ->
  before a s sa ->
  sure (rely a) (guarP orc a s) (fun r s' => r = fst (run (fit_zpoly orc a) s) /\ agree (region a) s' (snd (run (fit_zpoly orc a) s))) (fit_zpoly orc a) sa.
Proof.
  intros HW Hu Hcb H100 B0. rewrite (solo_run orc a s Hu). pose proof Hu as [Hw Hb]. fold (base_of a) in Hb.
  unfold fit_zpoly. cbv zeta. fold (fit_dir a).
  set (Q0 := fun (r : res config) s' => r = fst (run (load_config (fa_config_file a)) s) /\ before a s s').
  apply (sure_bind _ _ Q0).
  - apply rely_refl.
  - unfold Q0. unfold load_config. destruct (fa_config_file a) as [p|] eqn:Ecf.
    + cbn [callE bindP sure]. intros s' Hs'. pose proof (before_rely _ _ _ _ B0 Hs') as B1. split; [exact (conj (guar_refl _ _) (before_alike _ _ _ _ B1))|].
      assert (Ep : s' p = s p) by (apply B1; right; exact Ecf). cbn [exec fst snd run]. rewrite Ep.
      destruct (s p) as [[|[]]|]; cbn; intros s2 Hs2; (split; [reflexivity|eapply before_rely; eauto]).
    + intros s' Hs'. split; [reflexivity|eapply before_rely; eauto].
  - intros c s' [Hc HB]. rewrite (surjective_pairing (run (load_config (fa_config_file a)) s)). rewrite <- Hc. pose proof (eq_sym Hc) as Hc0. clear Hc.
    unfold pick_dir. cbv zeta. fold (base_of a). rewrite bind_assoc.
    set (s1 := upd s (base_of a) Dir).
    assert (Hs1 : forall q, before a s q -> q (base_of a) = Some Dir -> agree (touched a) q s1).
    { intros q (A1 & _ & _) Hq x [Hx|[->|Hx]]; unfold s1.
      - rewrite upd_other; [apply A1; auto|]. intros ->. exact (base_not_region a Hx).
      - rewrite upd_same. exact Hq.
      - rewrite upd_other; [apply A1; auto|]. intros ->. auto. }
    assert (HWs1 : wf s1).
    { unfold s1. destruct Hb as [Hb|Hb].
      - apply wf_upd_dir; [exact HW| |exact Hb]. unfold base_of. rewrite parent_snoc. exact Hw.
      - rewrite upd_id by exact Hb. exact HW. }
    assert (Hlast : forall q, before a s q -> q (base_of a) = Some Dir ->
      sure (rely a) (guarP orc a s) (fun r s' => r = fst (run (after_base orc a c) s1) /\ agree (region a) s' (snd (run (after_base orc a c) s1))) (after_base orc a c) q).
    { intros q Hq Hqb. (* keep base = Dir in the rely *)
      set (E2 := fun x y => rely a x y /\ (x (base_of a) = Some Dir)).
      assert (L : forall (T : Type) (p : prog T) x y, localS (touched a) (region a) p y -> agree (touched a) x y -> x (base_of a) = Some Dir -> (forall n, alike orc a s (snd (steps n p y))) ->
        sure (rely a) (guarP orc a s) (fun r s' => r = fst (run p y) /\ agree (touched a) s' (snd (run p y))) p x).
      { clear - s. intros T p. induction p as [t|e|X o k IH]; intros x y Hl Ha Hx Hal; cbn [sure run fst snd]; intros s' Hs'.
        - split; [reflexivity|]. intros q Hq. destruct Hs' as (R1 & R2 & _). rewrite <- (Ha q Hq). destruct Hq as [Hq|[->|Hq]]; [apply R1; auto|rewrite R2 by exact Hx; congruence|apply R1; auto].
        - split; [reflexivity|]. intros q Hq. destruct Hs' as (R1 & R2 & _). rewrite <- (Ha q Hq). destruct Hq as [Hq|[->|Hq]]; [apply R1; auto|rewrite R2 by exact Hx; congruence|apply R1; auto].
        - assert (Ha' : agree (touched a) s' y).
          { intros q Hq. destruct Hs' as (R1 & R2 & _). rewrite <- (Ha q Hq). destruct Hq as [Hq|[->|Hq]]; [apply R1; auto|rewrite R2 by exact Hx; congruence|apply R1; auto]. }
          assert (Hx' : s' (base_of a) = Some Dir) by (apply Hs', Hx).
          destruct Hl as [Ho Hk]. destruct (exec_agree _ _ o s' y Ho Ha') as (F1 & F2 & F3). split.
          + split; [|destruct (Hal 1%nat) as [k0 Hk0]; exists k0; intros q Hq; rewrite <- Hk0 by exact Hq; cbn [steps]; rewrite (surjective_pairing (exec o y)); cbn [steps snd]; rewrite F2 by (left; exact Hq); destruct (k (fst (exec o y))); reflexivity]. split; [|split].
            * intros q Hq _. apply F3, Hq.
            * intros q. apply exec_dirs.
            * congruence.
          + rewrite F1. pose proof (fun n => Hal (S n)) as Hal'. cbn [steps] in Hal'. destruct (exec o y) as [u y2]. cbn [fst snd] in *. apply IH; [exact Hk|exact F2|apply exec_dirs, Hx'|]. exact Hal'. }
      eapply sure_weaken; [|apply (L unit (after_base orc a c) q s1)].
      - intros r s2 [H1 H2]. split; [exact H1|]. intros x Hx. apply H2. left. exact Hx.
      - apply local_after; [exact HWs1|unfold s1; apply upd_same|]. assert (On : forall j, s1 (numbered (fit_dir a) (fa_name a) j) = s (numbered (fit_dir a) (fa_name a) j)).
        { intros j. unfold s1. apply upd_other. apply not_eq_sym, base_not_numbered, is_prefix_refl. }
        rewrite On. intros Hall. apply H100. intros j Hj. rewrite <- On. apply Hall, Hj.
      - apply Hs1; assumption.
      - exact Hqb.
      - destruct (solo_steps orc a s c Hu Hc0) as [m Hm]. intros n. exists (m + n)%nat. intros x _. rewrite steps_add, Hm. reflexivity. }
    unfold after_base in Hlast. cbn [call bindP sure]. intros s2 Hs2. pose proof (before_rely _ _ _ _ HB Hs2) as B2. split; [exact (conj (guar_refl _ _) (before_alike _ _ _ _ B2))|]. cbn [exec fst snd].
    pose proof B2 as (_ & W2 & [U2|U2]); rewrite U2.
    2:{ apply Hlast; assumption. }
    rewrite bind_assoc. unfold base_of at 1. unfold makedirs. rewrite rev_unit. cbn [makedirs_rev call bindP sure]. rewrite !rev_involutive.
    intros s3 Hs3. pose proof (before_rely _ _ _ _ B2 Hs3) as B3. split; [exact (conj (guar_refl _ _) (before_alike _ _ _ _ B3))|]. cbn [exec fst snd]. pose proof B3 as (_ & W3 & _). rewrite W3.
    cbn [bindP sure]. replace (rev ("pyoof_out" :: rev (fit_dir a))) with (base_of a) by (simpl; rewrite rev_involutive; reflexivity). intros s4 Hs4. pose proof (before_rely _ _ _ _ B3 Hs4) as B4. pose proof B4 as (A4 & W4 & [U4|U4]).
    + cbn [exec]. rewrite U4. assert (Pb : parent (base_of a) = fit_dir a) by apply parent_snoc. rewrite Pb, W4. cbn [fst snd]. split.
      * split; [|exists 0%nat; intros q Hq; cbn [steps snd]; rewrite upd_other; [apply A4; left; exact Hq|intros ->; exact (base_not_region a Hq)]]. split; [|split].
        -- intros q _ Hq. apply upd_other, Hq.
        -- intros q Hq. unfold upd. destruct (path_eq_dec _ _); auto.
        -- intros _. right. apply upd_same.
      * cbn [bindP]. apply Hlast; [|apply upd_same]. split; [|split].
        -- intros q Hq. rewrite upd_other; [apply A4, Hq|]. intros ->. destruct Hq as [Hq|Hq]; [exact (base_not_region a Hq)|auto].
        -- unfold upd. destruct (path_eq_dec _ _); auto.
        -- right. apply upd_same.
    + cbn [exec]. rewrite U4. cbn [fst snd]. split; [exact (conj (guar_refl _ _) (before_alike _ _ _ _ B4))|]. cbn [call bindP sure]. 
      intros s5 Hs5. pose proof (before_rely _ _ _ _ B4 Hs5) as B5. split; [exact (conj (guar_refl _ _) (before_alike _ _ _ _ B5))|]. assert (U5 : s5 (base_of a) = Some Dir) by (apply Hs5, U4).
      cbn [exec fst snd]. rewrite U5. cbn [bindP]. apply Hlast; assumption.
  - intros e s' [He HB]. rewrite (surjective_pairing (run (load_config (fa_config_file a)) s)). rewrite <- He. split; [reflexivity|].
    intros q Hq. apply HB. left. exact Hq.
  - apply rely_trans.
Qed.

Lemma sure_fitP orc a s : wf s -> usable (fit_dir a) s -> (cfg_of a (base_of a) -> False) ->
  s (numbered (fit_dir a) (fa_name a) 100) = None \/ s (numbered (fit_dir a) (fa_name a) 100) = Some Dir ->
  sure (rely a) (guarP orc a s) (fun r s' => r = fst (run (fit_zpoly orc a) s) /\ agree (region a) s' (snd (run (fit_zpoly orc a) s))) (fit_zpoly orc a) s.
Proof.
  intros HW Hu Hcb H100. apply sure_fitP_from; try assumption.
  - intros Hall. destruct H100 as [H|H]; [|exact H]. exfalso. exact (Hall 100%nat (le_n _) H).
  - destruct Hu. repeat split; auto.
Qed.


Lemma sure_mono {A} (E G E' G' : fs -> fs -> Prop) (Q Q' : res A -> fs -> Prop) (p : prog A) s :
  (forall x y, E' x y -> E x y) -> (forall x y, G x y -> G' x y) -> (forall r x, Q r x -> Q' r x) -> sure E G Q p s -> sure E' G' Q' p s.
Proof.
  intros HE HG HQ. revert s. induction p as [a|e|X o k IH]; intros s H s' Hs'; cbn [sure] in *.
  - apply HQ, H, HE, Hs'.
  - apply HQ, H, HE, Hs'.
  - destruct (H s' (HE _ _ Hs')) as [H1 H2]. split; [apply HG, H1|]. apply IH, H2.
Qed.
Lemma pool (fits : list (oracle * fit_args)) s sched ps s' : independent fits s -> interleave_all sched (all_fits fits) s = (ps, s') ->
  length ps = length fits /\
  (forall i o a p, nth_error fits i = Some (o, a) -> nth_error ps i = Some p ->
    (exists k, forall q, region a q -> s' q = snd (steps k (fit_zpoly o a) s) q) /\
    forall r, finished p = Some r -> r = fst (run (fit_zpoly o a) s) /\ forall q, region a q -> s' q = snd (run (fit_zpoly o a) s) q) /\
  forall q, (forall f, In f fits -> ~ region (snd f) q /\ q <> base_of (snd f)) -> s' q = s q.
Proof.
  intros (W & Hu & Hs) H. destruct fits as [|f0 ft] eqn:Ef.
  { assert (ps = [] /\ s' = s) as [-> ->]. { clear - H. revert H. induction sched as [|i t IH]; cbn; [intros E; inversion E; auto|]. destruct i; cbn; exact IH. }
    split; [reflexivity|]. split; [intros i o a p E; destruct i; discriminate E|]. auto. }
  rewrite <- Ef in *. clear ft Ef. set (f i := nth i fits f0).
  assert (Hf : forall i g, nth_error fits i = Some g -> f i = g) by (intros i g E; apply nth_error_nth; exact E).
  set (n := length fits).
  (* a process number beyond the list does nothing *)
  set (E i x y := (i < n)%nat -> rely (snd (f i)) x y). set (G i x y := (i < n)%nat /\ guarP (fst (f i)) (snd (f i)) s x y).
  set (Q i := fun (r : res unit) x => r = fst (run (fit_zpoly (fst (f i)) (snd (f i))) s) /\ agree (region (snd (f i))) x (snd (run (fit_zpoly (fst (f i)) (snd (f i))) s))).
  assert (Nth : forall i, (i < n)%nat -> nth_error fits i = Some (f i)) by (intros i Hi; apply nth_error_nth'; exact Hi).
  assert (GR : forall i j x y, i <> j -> (i < n)%nat -> (j < n)%nat -> guar (snd (f i)) x y -> rely (snd (f j)) x y).
  { intros i j x y N Hi Hj. apply guar_rely; [apply (Hs i j _ _ N (Nth i Hi) (Nth j Hj))|apply (Hs j i _ _ (not_eq_sym N) (Nth j Hj) (Nth i Hi))]. }
  set (I := fun x => (forall i, (i < n)%nat -> alike (fst (f i)) (snd (f i)) s x) /\ forall q, (forall g, In g fits -> ~ region (snd g) q /\ q <> base_of (snd g)) -> x q = s q).
  destruct (sure_interleave_all E G Q I sched) with (ps := all_fits fits) (s := s) (ps' := ps) (s' := s') as (L & (HI1 & HI2) & K).
  - intros i j x y N [Hi [Hg _]] Hj. apply (GR i j); assumption.
  - intros i x _. apply rely_refl.
  - intros i x y z H1 H2 Hi. eapply rely_trans; [apply H1|apply H2]; exact Hi.
  - intros i x y [Hi [Hg Hal]] [I1 I2]. split.
    + intros j Hj. destruct (Nat.eq_dec i j) as [->|N]; [exact Hal|]. destruct (I1 j Hj) as [k Hk]. exists k. intros q Hq. rewrite <- Hk by exact Hq. apply (GR i j x y N Hi Hj Hg). left. exact Hq.
    + intros q Hq. rewrite <- (I2 q Hq). apply Hg; apply (Hq (f i)); apply nth_In; exact Hi.
  - intros i p Hp. unfold all_fits in Hp. rewrite nth_error_map in Hp. destruct (nth_error fits i) as [g|] eqn:Eg; [|discriminate Hp]. cbn in Hp. injection Hp as <-.
    assert (Hi : (i < n)%nat) by (apply nth_error_Some; congruence). destruct (Hu i g Eg) as (U1 & U2 & U3). pose proof (sure_fitP (fst g) (snd g) s W U1 U3 U2) as S0.
    rewrite <- (Hf i g Eg) in S0 |- *. revert S0. apply sure_mono; [intros x y Hx; exact (Hx Hi)|intros x y Hg; exact (conj Hi Hg)|auto].
  - split; [|reflexivity]. intros i Hi. exists 0%nat. intros q _. reflexivity.
  - exact H.
  - rewrite L. split; [unfold all_fits; apply map_length|]. split; [|exact HI2]. intros i o a p E1 E2. pose proof (Hf _ _ E1) as E3.
    assert (Hi : (i < n)%nat) by (apply nth_error_Some; congruence). split.
    + destruct (HI1 i Hi) as [k Hk]. rewrite E3 in Hk. exists k. exact Hk.
    + intros r Fr. pose proof (K i p E2 ) as Kp. unfold Q in Kp. rewrite E3 in Kp. cbn [fst snd] in Kp.
      assert (Z : E i s' s') by (intros _; apply rely_refl). destruct p; cbn [finished] in Fr; try discriminate Fr; injection Fr as <-; apply (Kp s' Z).
Qed.
