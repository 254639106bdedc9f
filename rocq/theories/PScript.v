(** The batch of fits (scripts/pyoof_effelsberg.py). *)
From Coq Require Import String Ascii List Lia FunctionalExtensionality.
From Verif Require Import PyBase PyLib Num MZernike MMath MAperture MRad MCore MFs MOut MAct MAux SAux SOut SFit MTab MScript SScript PFs PStr PFit PFit2 PFit3 PFit4 PFit5 PFit6 PFit7 PFit8 PFit9 PConc PCrash PAux PConc2.
Import ListNotations.
Open Scope R_scope.
Open Scope string_scope.
Open Scope list_scope.
Open Scope prog_scope.

(** ** Keeping what exists *)
Lemma unaltered_refl s : unaltered s s.
Proof. intros q _. reflexivity. Qed.
Lemma unaltered_trans a b c : unaltered a b -> unaltered b c -> unaltered a c.
Proof. intros H1 H2 q Hq. rewrite H2; [apply H1, Hq|]. rewrite H1; exact Hq. Qed.
Lemma unaltered_some a b q n : unaltered a b -> a q = Some n -> b q = Some n.
Proof. intros H E. rewrite H; [exact E|congruence]. Qed.
Lemma unaltered_none a b q : unaltered a b -> b q = None -> a q = None.
Proof. intros H E. destruct (a q) eqn:Ea; [|reflexivity]. rewrite (unaltered_some _ _ _ _ H Ea) in E. discriminate. Qed.

Lemma order_results_keep orc a s1 s2 d n : unaltered s1 s2 -> order_results orc a s1 d n -> order_results orc a s2 d n.
Proof.
  intros U (rows & out & r & xy & ph & cov & cor & idx & H1 & H2 & [Ha Hb] & H3 & Hc & H4 & H5 & H6 & H7 & H8 & H9 & H10 & H11 & H12 & H13 & H14 & H15).
  exists rows, out, r, xy, ph, cov, cor, idx. unfold fitpar_rows, csv_file in *. split; [eapply unaltered_some; eauto|]. split; [exact H2|].
  split. { split; [exact Ha|]. intros P Q. destruct (Hb P Q) as (rows' & R1 & R2). exists rows'. split; [eapply unaltered_some; eauto|exact R2]. }
  repeat match goal with |- _ /\ _ => split end; try assumption; eapply unaltered_some; eauto.
Qed.
Lemma results_keep orc a s1 s2 d : unaltered s1 s2 -> results_in orc a s1 d -> results_in orc a s2 d.
Proof.
  intros U (H1 & H2 & H3 & H4 & H5 & H6 & (i & snrs & H7 & H8 & H9) & H10). unfold results_in, csv_file in *. repeat match goal with |- _ /\ _ => split end.
  - destruct H1 as (j & A & B & C). exists j. split; [exact A|]. split; [exact B|]. intros k Hk E. apply (C k Hk), (unaltered_none _ _ _ U E).
  - eapply unaltered_some; eauto.
  - intros f Hf. destruct (H3 f Hf) as (dc & X & Y). exists dc. split; [exact X|]. eapply unaltered_some; eauto.
  - eapply unaltered_some; eauto.
  - eapply unaltered_some; eauto.
  - eapply unaltered_some; eauto.
  - exists i, snrs. split; [exact H7|]. split; [|exact H9]. eapply unaltered_some; eauto.
  - intros n Hn. eapply order_results_keep; eauto.
Qed.

(** ** Counting free numbers *)
Lemma filter_one (p q : nat -> bool) (x : nat) l : NoDup l -> (forall y, y <> x -> q y = p y) -> (length (filter p l) <= S (length (filter q l)))%nat.
Proof.
  intros ND H. assert (E : forall l, ~ In x l -> filter p l = filter q l).
  { induction l0 as [|y t IH]; intros Hx; [reflexivity|]. cbn [filter]. rewrite (H y); [|intros ->; apply Hx; left; reflexivity].
    rewrite IH; [reflexivity|]. intros K. apply Hx. right. exact K. }
  induction l as [|y t IH]; [cbn; lia|]. inversion ND as [|? ? Hn Ht]; subst. specialize (IH Ht). cbn [filter].
  destruct (Nat.eq_dec y x) as [->|Hne].
  - rewrite (E t Hn). destruct (p x), (q x); cbn [length]; lia.
  - rewrite (H y Hne). destruct (p y); cbn [length]; lia.
Qed.
Definition is_free (w : path) (name : string) (s : fs) (j : nat) : bool := match s (numbered w name j) with None => true | Some _ => false end.
Lemma free_numbers_eq w name s : free_numbers w name s = length (filter (is_free w name s) (seq 0 101)).
Proof. reflexivity. Qed.
Lemma free_exists w name s : (1 <= free_numbers w name s)%nat -> exists j, (j <= 100)%nat /\ s (numbered w name j) = None.
Proof.
  rewrite free_numbers_eq. destruct (filter (is_free w name s) (seq 0 101)) as [|j t] eqn:E; [cbn; lia|]. intros _.
  assert (In j (filter (is_free w name s) (seq 0 101))) as H by (rewrite E; left; reflexivity). apply filter_In in H. destruct H as [H1 H2]. apply in_seq in H1.
  exists j. split; [lia|]. unfold is_free in H2. destruct (s (numbered w name j)); [discriminate|reflexivity].
Qed.
Lemma free_step w name s s' j : (forall i, i <> j -> s' (numbered w name i) = s (numbered w name i)) -> (free_numbers w name s <= S (free_numbers w name s'))%nat.
Proof. intros H. rewrite !free_numbers_eq. apply (filter_one _ _ j); [apply seq_NoDup|]. intros i Hi. unfold is_free. rewrite H by exact Hi. reflexivity. Qed.
Lemma free_same w name s s' : (forall i, s' (numbered w name i) = s (numbered w name i)) -> free_numbers w name s' = free_numbers w name s.
Proof. intros H. rewrite !free_numbers_eq. f_equal. apply filter_ext. intros i. unfold is_free. rewrite H. reflexivity. Qed.

(** ** One fit *)
Lemma same_length_app {A} (p q t u : list A) : p ++ t = q ++ u -> length p = length q -> p = q /\ t = u.
Proof.
  revert q. induction p as [|x p IH]; intros [|y q] E L; cbn in *; try discriminate; [auto|]. inversion E; subst. destruct (IH q H1) as [-> ->]; auto.
Qed.
Lemma above_dec (q p : path) : {above q p} + {~ above q p}.
Proof.
  revert p. induction q as [|x q IH]; intros p; [left; exists p; reflexivity|]. destruct p as [|y p].
  - right. intros [t E]. discriminate.
  - destruct (string_dec x y) as [->|N].
    + destruct (IH p) as [A|A]; [left; destruct A as [t ->]; exists t; reflexivity|right; intros [t E]; inversion E; subst; apply A; exists t; reflexivity].
    + right. intros [t E]. inversion E. congruence.
Qed.
Lemma numbered_related w n1 n2 i j : above (numbered w n1 i) (numbered w n2 j) \/ below (numbered w n2 j) (numbered w n1 i) -> n1 = n2 /\ i = j.
Proof.
  intros [[t E]|[t E]].
  - assert (L : length (numbered w n2 j) = length (numbered w n1 i)) by (rewrite !numbered_length; reflexivity).
    rewrite <- (app_nil_r (numbered w n2 j)) in E. apply same_length_app in E; [|exact L]. destruct E as [E _]. apply numbered_inj in E. intuition congruence.
  - assert (L : length (numbered w n1 i) = length (numbered w n2 j)) by (rewrite !numbered_length; reflexivity).
    rewrite <- (app_nil_r (numbered w n1 i)) in E. apply same_length_app in E; [|exact L]. destruct E as [E _]. apply numbered_inj in E. intuition congruence.
Qed.

Lemma belongs_near N d q : belongs N d q -> above q d \/ below d q.
Proof. intros [H|[->|(f & _ & ->)]]; [left; exact H|right; exists ["plots"]; reflexivity|right; exists f; reflexivity]. Qed.
Lemma belongs_apart N (s s' : fs) dirs : (forall q, (forall d, In d dirs -> ~ belongs N d q) -> s' q = s q) -> forall q, (forall d, In d dirs -> ~ above q d /\ ~ below d q) -> s' q = s q.
Proof. intros H q Hq. apply H. intros d Hd B. destruct (belongs_near _ _ _ B); [apply (proj1 (Hq d Hd))|apply (proj2 (Hq d Hd))]; assumption. Qed.
Lemma one_fit orc a s s' : wf s -> run (fit_zpoly orc a) s = (Ok tt, s') -> free_number a s -> fa_config_file a = None -> fa_make_plots a = true -> (1 <= fa_order_max a)%nat ->
  unaltered s s' /\ exists j, (j <= 100)%nat /\ let d := numbered (fit_dir a) (fa_name a) j in
    s d = None /\ results_in orc a s' d /\ (forall q, ~ belongs (fa_order_max a) d q -> s' q = s q).
Proof.
  intros W H F C PL N. assert (U : unaltered s s').
  { pose proof (always_run _ _ _ (fit_always orc a s W F)) as Hu. rewrite H in Hu. exact Hu. }
  split; [exact U|].
  destruct (fit_files _ _ _ _ W H F) as (j & Hj & Hn & Hlt & Hf & Hab & Hpl & Hoth). cbv zeta in *.
  assert (Hb : forall q, ~ belongs (fa_order_max a) (numbered (fit_dir a) (fa_name a) j) q -> s' q = s q).
  { intros q B. apply Hoth; [intros A; apply B; left; exact A|intros _ _ E; apply B; right; left; exact E|].
    rewrite PL. intros f Hf' E. apply B. right. right. exists f. auto. }
  assert (Hch : forall q, ~ above q (numbered (fit_dir a) (fa_name a) j) -> ~ below (numbered (fit_dir a) (fa_name a) j) q -> s' q = s q).
  { intros q A B. apply Hoth; [exact A| |].
    - intros _ _ ->. apply B. exists ["plots"]. reflexivity.
    - intros f _ ->. apply B. exists f. reflexivity. }
  destruct (stored_together orc a s s' default_config W H F) as (j2 & snrs & Hj2 & Hn2 & Hs & Hd & Ho).
  { unfold configured. rewrite C. reflexivity. }
  cbv zeta in *. destruct (Hd N) as (D1 & D2 & D3 & i & D4 & D5).
  assert (j2 = j) as ->.
  { assert (Hx : s (numbered (fit_dir a) (fa_name a) j2 ++ ["beam_data.csv"]) = None) by (apply wf_under; assumption).
    unfold csv_file in D1. destruct (Nat.eq_dec j2 j) as [E0|E0]; [exact E0|]. rewrite Hch in D1; [congruence| |].
    - intros [t E]. apply (f_equal (@length _)) in E. rewrite !app_length, !numbered_length in E. cbn in E. lia.
    - intros [t E]. apply same_length_app in E; [|rewrite !numbered_length; reflexivity]. destruct E as [E _]. apply numbered_inj in E. intuition. }
  exists j. split; [exact Hj|]. split; [exact Hn|]. split; [|exact Hb].
  unfold results_in. split; [exists j; split; [exact Hj|]; split; [reflexivity|]; intros i0 Hi0 E0; apply (Hlt i0 Hi0), (unaltered_none _ _ _ U E0)|]. split; [apply Hab; exists []; rewrite app_nil_r; reflexivity|]. split; [exact Hf|]. repeat (split; [assumption|]). split; [exists i, snrs; auto|]. exact Ho.
Qed.

(** ** The arguments of a fit *)
Lemma mapM_inv {A B} (f : A -> res B) l r : mapM f l = Ok r -> Forall2 (fun x y => f x = Ok y) l r.
Proof.
  revert r. induction l as [|x t IH]; intros r H; cbn [mapM] in H.
  - apply Ok_inj in H. subst. constructor.
  - destruct (f x) as [y|e] eqn:E; [|discriminate]. cbn [bind] in H. destruct (mapM f t) as [ys|e]; [|discriminate]. cbn [bind] in H. apply Ok_inj in H. subst r. constructor; auto.
Qed.
Lemma real_of_inv l r : mapM real_of l = Ok r -> map Fin r = l.
Proof.
  intros H. apply mapM_inv in H. induction H as [|x y t u E _ IH]; [reflexivity|]. cbn [map]. rewrite IH. destruct x; try discriminate. cbn in E. apply Ok_inj in E. subst. reflexivity.
Qed.
Lemma real_of_inv2 l r : mapM (mapM real_of) l = Ok r -> map (map Fin) r = l.
Proof.
  intros H. apply mapM_inv in H. induction H as [|x y t u E _ IH]; [reflexivity|]. cbn [map]. rewrite IH. rewrite (real_of_inv _ _ E). reflexivity.
Qed.
Lemma text_of_inv h t : text_of h = Ok t -> h = HStr t.
Proof. destruct h; cbn; intros E; [discriminate E||(apply Ok_inj in E; subst; reflexivity)..]. Qed.
Lemma bind_inv {A B} (r : res A) (f : A -> res B) y : bind r f = Ok y -> exists x, r = Ok x /\ f x = Ok y.
Proof. destruct r as [x|e]; cbn; [eauto|discriminate]. Qed.
Lemma fit_call_inv sc cwd ob su a : fit_call sc cwd ob su = Ok a -> fit_of sc ob su a.
Proof.
  unfold fit_call. intros H. apply bind_inv in H. destruct H as (il & E1 & H). apply bind_inv in H. destruct H as (o1 & E2 & H).
  apply bind_inv in H. destruct H as (d1 & E3 & H). apply bind_inv in H. destruct H as (u & E4 & H). apply bind_inv in H. destruct H as (v & E5 & H).
  apply Ok_inj in H. subst a. unfold fit_of. cbn. rewrite E1, (text_of_inv _ _ E2), (text_of_inv _ _ E3), (real_of_inv2 _ _ E4), (real_of_inv2 _ _ E5). repeat split; reflexivity.
Qed.

(** ** Reading an observation depends on its file only *)
Lemma run_pure_bind {A B} (r : res A) (f : A -> prog B) s1 s2 : (forall a, fst (run (f a) s1) = fst (run (f a) s2)) -> fst (run (bindP (lift r) f) s1) = fst (run (bindP (lift r) f) s2).
Proof. intros H. rewrite !run_bind, !run_lift. destruct r; [apply H|reflexivity]. Qed.
Lemma extract_same cwd p s1 s2 : s1 (resolve cwd p) = s2 (resolve cwd p) -> fst (run (extract_data_effelsberg cwd p) s1) = fst (run (extract_data_effelsberg cwd p) s2).
Proof.
  intros E. unfold extract_data_effelsberg. destruct (negb _); [reflexivity|]. rewrite !run_bind, !run_open, E.
  destruct (s2 (resolve cwd p)) as [[|[]]|]; try reflexivity. cbv zeta. repeat (apply run_pure_bind; intros). reflexivity.
Qed.
Lemma extract_state cwd p s : snd (run (extract_data_effelsberg cwd p) s) = s.
Proof. apply functional_extensionality. intros q. apply extract_unchanged. Qed.
Lemma observed_name cwd s f dir stem ob : names_fits f dir stem -> observed cwd s f ob -> ob_name ob = stem.
Proof. intros NF H. destruct (proj1 (effelsberg_iff cwd f dir stem s ob NF) H) as [[E _] _]. rewrite E. apply (split_names f dir stem NF). Qed.

Lemma Forall2_mono {A B} (P Q : A -> B -> Prop) l m : (forall x y, P x y -> Q x y) -> Forall2 P l m -> Forall2 Q l m.
Proof. intros H F. induction F; constructor; auto. Qed.

(** ** All telescopes for one observation *)
Definition job_stored orc sc (s s' : fs) (job : observation * setup) (d : path) : Prop :=
  exists a, fit_of sc (fst job) (snd job) a /\ s d = None /\ results_in orc a s' d.
Lemma job_keep orc sc s0 s s1 s2 job d : unaltered s0 s -> unaltered s1 s2 -> job_stored orc sc s s1 job d -> job_stored orc sc s0 s2 job d.
Proof. intros U1 U2 (a & H1 & H2 & H3). exists a. split; [exact H1|]. split; [eapply unaltered_none; eauto|eapply results_keep; eauto]. Qed.

Lemma all_setups orc sc cwd ob sus s s' : wf s -> (1 <= sc_order_max sc)%nat -> (length sus <= free_numbers (sc_work_dir sc) (ob_name ob) s)%nat ->
  run (each (fun su => a <- lift (fit_call sc cwd ob su) ;; fit_zpoly orc a) sus) s = (Ok tt, s') ->
  unaltered s s' /\ exists dirs, NoDup dirs /\ Forall2 (job_stored orc sc s s') (map (pair ob) sus) dirs /\
    (forall q, (forall d, In d dirs -> ~ belongs (sc_order_max sc) d q) -> s' q = s q) /\
    (forall d, In d dirs -> s d = None /\ s' d <> None) /\
    (free_numbers (sc_work_dir sc) (ob_name ob) s <= length sus + free_numbers (sc_work_dir sc) (ob_name ob) s')%nat /\
    forall name i, name <> ob_name ob -> s' (numbered (sc_work_dir sc) name i) = s (numbered (sc_work_dir sc) name i).
Proof.
  intros W N. revert s W. induction sus as [|su sus IH]; intros s W F H.
  - cbn in H. injection H as <-. split; [apply unaltered_refl|]. exists []. split; [constructor|]. split; [constructor|]. split; [reflexivity|].
    split; [intros d []|]. split; [lia|]. reflexivity.
  - cbn [each] in H. apply run_bind_inv in H. destruct H as ([] & s1 & H1 & H2). apply run_lift_inv in H1. destruct H1 as (a & Ea & H1).
    apply fit_call_inv in Ea. pose proof Ea as (En & _ & _ & _ & _ & _ & _ & _ & _ & _ & _ & _ & _ & _ & _ & Eo & _ & _ & _ & Ec & Ep & Ew).
    assert (Ed : fit_dir a = sc_work_dir sc) by (unfold fit_dir; rewrite Ew; reflexivity).
    cbn [length] in F. assert (Fa : free_number a s) by (unfold free_number; rewrite Ed, En; apply free_exists; lia).
    destruct (one_fit orc a s s1 W H1 Fa Ec Ep ltac:(rewrite Eo; exact N)) as (U1 & j & Hj & Hn & Hr & Hc). rewrite Ed, En, Eo in *.
    set (d := numbered (sc_work_dir sc) (ob_name ob) j) in *.
    assert (Hnum : forall name i, name <> ob_name ob \/ i <> j -> s1 (numbered (sc_work_dir sc) name i) = s (numbered (sc_work_dir sc) name i)).
    { intros name i Hne. apply Hc. intros E. apply belongs_near in E. destruct E as [E|E]; [apply (or_introl (B := below d (numbered (sc_work_dir sc) name i))) in E|apply (or_intror (A := above (numbered (sc_work_dir sc) name i) d)) in E];
        apply numbered_related in E; intuition congruence. }
    pose proof (free_step (sc_work_dir sc) (ob_name ob) s s1 j ltac:(intros i Hi; apply Hnum; right; exact Hi)) as Fs.
    assert (W1 : wf s1) by (replace s1 with (snd (run (fit_zpoly orc a) s)) by (rewrite H1; reflexivity); apply run_wf, W).
    destruct (IH s1 W1 ltac:(lia) H2) as (U2 & dirs & ND & FA & Hch & Hd & Hf & Ho).
    assert (Hd1 : s1 d = Some Dir) by apply Hr.
    split; [eapply unaltered_trans; eauto|]. exists (d :: dirs). split; [|split; [|split; [|split; [|split]]]].
    + constructor; [|exact ND]. intros Hin. destruct (Hd d Hin) as [X _]. congruence.
    + cbn [map]. constructor.
      * exists a. split; [exact Ea|]. split; [exact Hn|]. eapply results_keep; eauto.
      * revert FA. apply Forall2_mono. intros job d' Hjob. eapply job_keep; [exact U1|apply unaltered_refl|exact Hjob].
    + intros q Hq. rewrite Hch; [apply Hc; apply (Hq d); left; reflexivity|]. intros d' Hin. apply Hq. right. exact Hin.
    + intros d' [<-|Hin].
      * split; [exact Hn|]. rewrite (unaltered_some _ _ _ _ U2 Hd1). discriminate.
      * destruct (Hd d' Hin) as [X Y]. split; [eapply unaltered_none; eauto|exact Y].
    + cbn [length]. lia.
    + intros name i Hne. rewrite Ho by exact Hne. apply Hnum. left. exact Hne.
Qed.

(** ** All observations *)
Lemma NoDup_app_intro {A} (l m : list A) : NoDup l -> NoDup m -> (forall x, In x l -> ~ In x m) -> NoDup (l ++ m).
Proof.
  intros Hl Hm H. induction Hl as [|x l Hx Hl IH]; [exact Hm|]. cbn. constructor.
  - rewrite in_app_iff. intros [K|K]; [contradiction|]. apply (H x); [left; reflexivity|exact K].
  - apply IH. intros y Hy. apply H. right. exact Hy.
Qed.
Lemma batch_step orc sc cwd f dir stem s s' : names_fits f dir stem -> wf s -> (1 <= sc_order_max sc)%nat ->
  (length (sc_setups sc) <= free_numbers (sc_work_dir sc) stem s)%nat ->
  run (compute_phase_error orc sc cwd f) s = (Ok tt, s') ->
  unaltered s s' /\ exists ob dirs, observed cwd s f ob /\ ob_name ob = stem /\ NoDup dirs /\ Forall2 (job_stored orc sc s s') (map (pair ob) (sc_setups sc)) dirs /\
    (forall q, (forall d, In d dirs -> ~ belongs (sc_order_max sc) d q) -> s' q = s q) /\
    (forall d, In d dirs -> s d = None /\ s' d <> None) /\
    (free_numbers (sc_work_dir sc) stem s <= length (sc_setups sc) + free_numbers (sc_work_dir sc) stem s')%nat /\
    forall name i, name <> stem -> s' (numbered (sc_work_dir sc) name i) = s (numbered (sc_work_dir sc) name i).
Proof.
  intros NF W N F H. unfold compute_phase_error in H. apply run_bind_inv in H. destruct H as (ob & s1 & H1 & H2).
  assert (Ho : observed cwd s f ob) by (unfold observed; rewrite H1; reflexivity).
  assert (s1 = s) as -> by (rewrite <- (extract_state cwd f s), H1; reflexivity).
  pose proof (observed_name cwd s f dir stem ob NF Ho) as En. rewrite <- En in *.
  destruct (all_setups orc sc cwd ob (sc_setups sc) s s' W N F H2) as (U & dirs & ND & FA & Hch & Hd & Hf & Hn).
  split; [exact U|]. exists ob, dirs. auto 10.
Qed.

Lemma batch_stored orc sc cwd files stems s s' : wf s -> (1 <= sc_order_max sc)%nat -> input_files cwd s files stems -> room sc stems s ->
  run (batch orc sc cwd files) s = (Ok tt, s') ->
  unaltered s s' /\ exists obs dirs, Forall2 (observed cwd s) files obs /\ NoDup dirs /\ Forall2 (job_stored orc sc s s') (list_prod obs (sc_setups sc)) dirs /\
    (forall q, (forall d, In d dirs -> ~ belongs (sc_order_max sc) d q) -> s' q = s q) /\
    (forall d, In d dirs -> s d = None /\ s' d <> None).
Proof.
  intros W N [HN HE]. revert s W HE. induction HN as [|f stem files stems [dir NF] HN IH]; intros s W HE R H.
  - cbn in H. injection H as <-. split; [apply unaltered_refl|]. exists [], []. repeat split; try constructor; try contradiction.
  - unfold batch in H. cbn [each] in H. apply run_bind_inv in H. destruct H as ([] & s1 & H1 & H2).
    assert (Fr : (length (sc_setups sc) <= free_numbers (sc_work_dir sc) stem s)%nat).
    { specialize (R stem (or_introl eq_refl)). cbn [count_occ] in R. destruct (string_dec stem stem); [|congruence]. nia. }
    destruct (batch_step orc sc cwd f dir stem s s1 NF W N Fr H1) as (U1 & ob & dirs1 & Ho & En & ND1 & FA1 & Hch1 & Hd1 & Hf1 & Hn1).
    assert (W1 : wf s1) by (replace s1 with (snd (run (compute_phase_error orc sc cwd f) s)) by (rewrite H1; reflexivity); apply run_wf, W).
    assert (R1 : room sc stems s1).
    { intros st Hst. specialize (R st (or_intror Hst)). cbn [count_occ] in R. destruct (string_dec stem st) as [->|Hne].
      - nia.
      - rewrite (free_same _ st s s1); [exact R|]. intros i. apply Hn1. congruence. }
    destruct (IH s1 W1 ltac:(intros g Hg; apply not_eq_sym; intros E; symmetry in E; apply (unaltered_none _ _ _ U1) in E; revert E; apply HE; right; exact Hg) R1 H2) as (U2 & obs & dirs2 & Hobs & ND2 & FA2 & Hch2 & Hd2).
    split; [eapply unaltered_trans; eauto|]. exists (ob :: obs), (dirs1 ++ dirs2). split; [|split; [|split; [|split]]].
    + constructor; [exact Ho|]. assert (Hext : forall g o, In g files -> observed cwd s1 g o -> observed cwd s g o).
      { intros g o Hg Hob. unfold observed in *. rewrite <- Hob. apply extract_same. symmetry. apply U1. apply HE. right. exact Hg. }
      clear - Hobs Hext. induction Hobs as [|g o gs os Hg _ IH]; constructor; [apply Hext; [left; reflexivity|exact Hg]|apply IH; intros; apply Hext; [right|]; assumption].
    + apply NoDup_app_intro; [exact ND1|exact ND2|]. intros d A B. destruct (Hd1 d A) as [_ X]. destruct (Hd2 d B) as [Y _]. contradiction.
    + cbn [list_prod]. apply Forall2_app.
      * revert FA1. apply Forall2_mono. intros job d. apply job_keep; [apply unaltered_refl|exact U2].
      * revert FA2. apply Forall2_mono. intros job d. apply job_keep; [exact U1|apply unaltered_refl].
    + intros q Hq. rewrite Hch2; [apply Hch1; intros d Hin; apply Hq, in_or_app; left; exact Hin|]. intros d Hin. apply Hq, in_or_app. right. exact Hin.
    + intros d Hin. apply in_app_or in Hin. destruct Hin as [Hin|Hin].
      * destruct (Hd1 d Hin) as [X Y]. split; [exact X|]. destruct (s1 d) as [nd|] eqn:E; [|contradiction]. rewrite (unaltered_some _ _ _ _ U2 E). discriminate.
      * destruct (Hd2 d Hin) as [X Y]. split; [eapply unaltered_none; eauto|exact Y].
Qed.
Lemma batch_all orc sc cwd files stems s s' : wf s -> (1 <= sc_order_max sc)%nat -> input_files cwd s files stems -> room sc stems s ->
  run (batch orc sc cwd files) s = (Ok tt, s') -> all_stored orc sc cwd files s s'.
Proof.
  intros W N I R H. destruct (batch_stored orc sc cwd files stems s s' W N I R H) as (U & obs & dirs & H1 & H2 & H3 & H4 & _).
  split; [exact U|]. exists obs, dirs. auto.
Qed.

(** ** Completion *)
Lemma mapM_ok {A B} (f : A -> res B) l r : Forall2 (fun x y => f x = Ok y) l r -> mapM f l = Ok r.
Proof. intros H. induction H as [|x y l r E _ IH]; [reflexivity|]. cbn [mapM]. rewrite E. cbn [bind]. rewrite IH. reflexivity. Qed.
Lemma real_of_ok l : mapM real_of (map Fin l) = Ok l.
Proof. apply mapM_ok. induction l; constructor; auto. Qed.
Lemma real_of_ok2 l : mapM (mapM real_of) (map (map Fin) l) = Ok l.
Proof. apply mapM_ok. induction l; constructor; auto. apply real_of_ok. Qed.
Lemma fit_call_ok sc cwd ob su il : sc_illum sc = Ok il -> fittable ob -> exists a, fit_call sc cwd ob su = Ok a /\ three_maps a /\ fa_tel a = su_tel su.
Proof.
  intros Hi ((o & Eo) & (d & Ed) & Hb & u & v & Eu & Ev & Lu & Lv & Hn). unfold fit_call. rewrite Hi, Eo, Ed, Eu, Ev. cbn [bind text_of]. rewrite !real_of_ok2. cbn [bind].
  eexists. split; [reflexivity|]. split; [|reflexivity]. repeat split; cbn [fa_beam fa_u fa_v]; try assumption; apply Hn; assumption.
Qed.
Lemma usable_later w s s' : usable w s -> wf s' -> unaltered s s' -> (exists name j, s' (numbered w name j) = Some Dir) -> usable w s'.
Proof.
  intros [H1 H2] W U (name & j & H). split; [eapply unaltered_some; eauto|]. right. rewrite numbered_snoc in H. apply (proj2 W (w ++ ["pyoof_out"]) (name ^^ "-" ^^ pad3 j)). congruence.
Qed.
Lemma setups_complete orc sc cwd il ob sus s : wf s -> (1 <= sc_order_max sc)%nat -> sc_illum sc = Ok il -> cooperative orc -> usable (sc_work_dir sc) s -> fittable ob ->
  (forall su, In su sus -> 0 < tel_pr (su_tel su)) -> (length sus <= free_numbers (sc_work_dir sc) (ob_name ob) s)%nat ->
  exists s', run (each (fun su => a <- lift (fit_call sc cwd ob su) ;; fit_zpoly orc a) sus) s = (Ok tt, s').
Proof.
  intros W N Hi C. revert s W. induction sus as [|su sus IH]; intros s W U Hf Hp F; [eexists; reflexivity|].
  destruct (fit_call_ok sc cwd ob su il Hi Hf) as (a & Ea & Ht & Etel). pose proof (fit_call_inv _ _ _ _ _ Ea) as Hof.
  pose proof Hof as (En & _ & _ & _ & _ & _ & _ & _ & _ & _ & _ & _ & _ & _ & _ & Eo & _ & _ & _ & Ec & Ep & Ew).
  assert (Ed : fit_dir a = sc_work_dir sc) by (unfold fit_dir; rewrite Ew; reflexivity).
  cbn [length] in F. assert (Fa : free_number a s) by (unfold free_number; rewrite Ed, En; apply free_exists; lia).
  destruct (fit_completes orc a s default_config) as [s1 H1]; try assumption; [rewrite Ed; exact U|unfold configured; rewrite Ec; reflexivity|exact default_valid|rewrite Etel; apply Hp; left; reflexivity|].
  destruct (one_fit orc a s s1 W H1 Fa Ec Ep ltac:(rewrite Eo; exact N)) as (U1 & j & Hj & Hn & Hr & Hc). rewrite Ed, En, Eo in *.
  assert (W1 : wf s1) by (replace s1 with (snd (run (fit_zpoly orc a) s)) by (rewrite H1; reflexivity); apply run_wf, W).
  assert (Fs : (free_numbers (sc_work_dir sc) (ob_name ob) s <= S (free_numbers (sc_work_dir sc) (ob_name ob) s1))%nat).
  { apply (free_step _ _ _ _ j). intros i Hi2. apply Hc. intros E. apply belongs_near in E. destruct E as [E|E].
    - apply (or_introl (B := below (numbered (sc_work_dir sc) (ob_name ob) j) (numbered (sc_work_dir sc) (ob_name ob) i))) in E. apply numbered_related in E. intuition congruence.
    - apply (or_intror (A := above (numbered (sc_work_dir sc) (ob_name ob) i) (numbered (sc_work_dir sc) (ob_name ob) j))) in E. apply numbered_related in E. intuition congruence. }
  destruct (IH s1 W1) as [s' H'].
  - eapply usable_later; eauto. exists (ob_name ob), j. apply Hr.
  - exact Hf.
  - intros su' Hin. apply Hp. right. exact Hin.
  - lia.
  - exists s'. cbn [each]. rewrite run_bind, run_bind, run_lift, Ea, H1. exact H'.
Qed.
Lemma batch_completes orc sc cwd files stems il s : wf s -> (1 <= sc_order_max sc)%nat -> sc_illum sc = Ok il -> cooperative orc -> usable (sc_work_dir sc) s ->
  (forall su, In su (sc_setups sc) -> 0 < tel_pr (su_tel su)) -> input_files cwd s files stems -> room sc stems s ->
  (forall f, In f files -> exists ob, observed cwd s f ob /\ fittable ob) ->
  exists s', run (batch orc sc cwd files) s = (Ok tt, s').
Proof.
  intros W N Hi C U Hp [HN HE] R HO. revert s W U HE R HO. induction HN as [|f stem files stems [dir NF] HN IH]; intros s W U HE R HO; [eexists; reflexivity|].
  assert (Fr : (length (sc_setups sc) <= free_numbers (sc_work_dir sc) stem s)%nat).
  { specialize (R stem (or_introl eq_refl)). cbn [count_occ] in R. destruct (string_dec stem stem); [|congruence]. nia. }
  destruct (HO f (or_introl eq_refl)) as (ob & Ho & Hf). pose proof (observed_name cwd s f dir stem ob NF Ho) as En.
  assert (Hx : run (extract_data_effelsberg cwd f) s = (Ok ob, s)) by (rewrite (surjective_pairing (run _ _)), extract_state; rewrite Ho; reflexivity).
  destruct (setups_complete orc sc cwd il ob (sc_setups sc) s W N Hi C U Hf Hp ltac:(rewrite En; exact Fr)) as [s1 H1].
  assert (H1' : run (compute_phase_error orc sc cwd f) s = (Ok tt, s1)) by (unfold compute_phase_error; rewrite run_bind, Hx; exact H1).
  destruct (batch_step orc sc cwd f dir stem s s1 NF W N Fr H1') as (U1 & ob' & dirs1 & Ho' & _ & ND1 & FA1 & Hch1 & Hd1 & Hf1 & Hn1).
  assert (W1 : wf s1) by (replace s1 with (snd (run (compute_phase_error orc sc cwd f) s)) by (rewrite H1'; reflexivity); apply run_wf, W).
  destruct (IH s1 W1) as [s' H'].
  - destruct dirs1 as [|d dirs1].
    + split; [rewrite Hch1; [apply U|intros d []]|rewrite Hch1; [apply U|intros d []]].
    + inversion FA1 as [|job d0 l m (a & Ha & _ & (j & _ & Ej & _) & Hdir & _)]; subst. destruct Ha as (_ & _ & _ & _ & _ & _ & _ & _ & _ & _ & _ & _ & _ & _ & _ & _ & _ & _ & _ & _ & _ & Ew).
      assert (Ed : fit_dir a = sc_work_dir sc) by (unfold fit_dir; rewrite Ew; reflexivity). rewrite Ed in Hdir. eapply usable_later; eauto.
  - intros g Hg E. apply (unaltered_none _ _ _ U1) in E. revert E. apply HE. right. exact Hg.
  - intros st Hst. specialize (R st (or_intror Hst)). cbn [count_occ] in R. destruct (string_dec stem st) as [->|Hne]; [nia|].
    rewrite (free_same _ st s s1); [exact R|]. intros i. apply Hn1. congruence.
  - intros g Hg. destruct (HO g (or_intror Hg)) as (o & Hob & Hfo). exists o. split; [|exact Hfo]. unfold observed in *. rewrite <- Hob. apply extract_same. apply U1. apply HE. right. exact Hg.
  - exists s'. unfold batch. cbn [each]. rewrite run_bind, H1'. exact H'.
Qed.
