(** From the observations to the look-up table. *)
From Coq Require Import String Ascii List ZArith Lia Lra Permutation.
From Verif Require Import PyBase PyLib Num MZernike MMath MAperture MRad MCore MFs MOut MAct MAux SMath SAux SOut SFit MTab STab MScript SScript SAct SAct2 SLookup SChain.
From Verif Require Import PFs PStr PFit PFit3 PParams PTab PAct4 PLookup PLookup2 PScript.
Import ListNotations.
Open Scope R_scope.
Open Scope string_scope.
Open Scope list_scope.
Open Scope prog_scope.

(** ** The solution stored for an order is the one found *)
Lemma default_deleted n (start x : list R) : (1 <= n)%nat -> length start = (5 + coeffs n)%nat -> np_delete start (cf_excluded default_config) = Ok x -> length x = coeffs n.
Proof.
  intros N L H. assert (C : (3 <= coeffs n)%nat) by (unfold coeffs; apply Nat.div_le_lower_bound; nia).
  change (cf_excluded default_config) with (map Z.of_nat [1; 2; 3; 4; 5]%nat) in H.
  assert (S : Sorted.Sorted lt [1; 2; 3; 4; 5]%nat) by (repeat constructor).
  rewrite np_delete_nat in H by (cbn; intros e He; rewrite L; lia). apply Ok_inj in H. subst x.
  pose proof (delete_at_length start 0 [1; 2; 3; 4; 5]%nat S) as X. cbn [length] in X. specialize (X ltac:(cbn; intros e He; rewrite L; lia)). lia.
Qed.
Lemma default_filled n x p : (1 <= n)%nat -> length x = coeffs n -> params_complete (cf_fixed default_config) (cf_excluded default_config) (coeffs n) x = Ok p -> p = filled x.
Proof.
  intros N L H. assert (C : (3 <= coeffs n)%nat) by (unfold coeffs; apply Nat.div_le_lower_bound; nia).
  destruct x as [|x0 x]; [cbn [length] in L; lia|]. cbn [length] in L. unfold params_complete in H. cbn [cf_fixed cf_excluded default_config] in H.
  destruct (Nat.eqb_spec (length (x0 :: x)) (5 + coeffs n)) as [E|_]; [cbn [length] in E; lia|].
  cbn [fold_left bind] in H. unfold np_insert in H. cbn [length Nat.leb firstn skipn bind app] in H. apply Ok_inj in H. subst p. reflexivity.
Qed.
Lemma fitpar_same s d n r r' : fitpar_rows s d n r -> fitpar_rows s d n r' -> r = r'.
Proof. unfold fitpar_rows. congruence. Qed.
Lemma stored_found orc a s d : sized_answers orc -> fa_fit_previous a = true -> results_in orc a s d ->
  forall n, (1 <= n <= fa_order_max a)%nat -> exists rows, fitpar_rows s d n rows /\ length rows = (5 + coeffs n)%nat /\ found orc a n (map parfit rows).
Proof.
  intros SZ FP (_ & _ & _ & _ & _ & _ & _ & OR). induction n as [|n IH]; intros Hn; [lia|].
  destruct (OR (S n) Hn) as (rows & out & _ & _ & _ & _ & _ & _ & FR & LR & [S1 S2] & AN & PC & _).
  exists rows. split; [exact FR|]. split; [exact LR|].
  assert (E : map parfit rows = filled (lo_x out)).
  { apply (default_filled (S n)); [lia| |exact PC]. destruct AN as (x0 & lo & hi & D & _ & _ & O). rewrite (SZ _ _ _ _ _ O). apply (default_deleted (S n) (map parinit rows)); [lia|rewrite map_length; exact LR|exact D]. }
  rewrite E. destruct n as [|n].
  - apply found_first. rewrite (S1 (or_intror eq_refl)) in AN. exact AN.
  - destruct IH as (rows0 & F0 & _ & FN); [lia|]. destruct (S2 FP ltac:(lia)) as (rows' & F' & ST). replace (S (S n) - 1)%nat with (S n) in F' by lia.
    rewrite (fitpar_same _ _ _ _ _ F' F0) in ST. apply (found_next orc a (S n) (map parfit rows0)); [exact FN|]. rewrite ST in AN. replace (S n + 2)%nat with (S (S n) + 1)%nat by lia. exact AN.
Qed.
Lemma answered_same orc a c n start o1 o2 : answered orc a c n start o1 -> answered orc a c n start o2 -> o1 = o2.
Proof. intros (x & l & h & A1 & A2 & A3 & A4) (x' & l' & h' & B1 & B2 & B3 & B4). rewrite B1 in A1. rewrite B2 in A2. rewrite B3 in A3. apply Ok_inj in A1, A2, A3. subst. rewrite B4 in A4. apply Ok_inj in A4. congruence. Qed.
Lemma found_pos orc a n p : found orc a n p -> (1 <= n)%nat.
Proof. destruct 1; lia. Qed.
Lemma found_unique orc a n p q : found orc a n p -> found orc a n q -> p = q.
Proof.
  intros H. revert q. induction H as [out A|n p out F IH A]; intros q G.
  - inversion G as [out' A' |n' p' out' F' A']; subst; [rewrite (answered_same _ _ _ _ _ _ _ A A'); reflexivity|apply found_pos in F'; lia].
  - inversion G as [out' A' |n' p' out' F' A']; subst; [apply found_pos in F; lia|]. rewrite <- (IH _ F') in A'. rewrite (answered_same _ _ _ _ _ _ _ A A'). reflexivity.
Qed.
Lemma found_same orc a a' n p : (forall k, misfit a default_config k = misfit a' default_config k) -> found orc a n p -> found orc a' n p.
Proof.
  intros M. assert (X : forall k st out, answered orc a default_config k st out -> answered orc a' default_config k st out).
  { intros k st out (x & l & h & A1 & A2 & A3 & A4). exists x, l, h. rewrite <- M. auto. }
  induction 1 as [out A|k q out F IH A]; [apply found_first; auto|]. eapply found_next; eauto.
Qed.

(** ** The fits of one observation agree *)
Lemma map_fin_inj l m : map Fin l = map Fin m -> l = m.
Proof. revert m; induction l as [|x l IH]; intros [|y m] H; cbn in H; try discriminate; [reflexivity|]. injection H as -> H. f_equal. auto. Qed.
Lemma map_map_fin_inj l m : map (map Fin) l = map (map Fin) m -> l = m.
Proof. revert m; induction l as [|x l IH]; intros [|y m] H; cbn in H; try discriminate; [reflexivity|]. injection H as E H. f_equal; [apply map_fin_inj; exact E|auto]. Qed.
Lemma fit_of_same sc ob su a a' orc : fit_of sc ob su a -> fit_of sc ob su a' -> (forall c k, misfit a c k = misfit a' c k) /\ snr_values orc a = snr_values orc a'.
Proof.
  intros (A1 & A2 & A3 & A4 & A5 & A6 & A7 & A8 & A9 & A10 & A11 & A12 & A13 & A14 & A15 & A16 & A17 & A18 & A19 & _)
         (B1 & B2 & B3 & B4 & B5 & B6 & B7 & B8 & B9 & B10 & B11 & B12 & B13 & B14 & B15 & B16 & B17 & B18 & B19 & _).
  assert (U : fa_u a = fa_u a') by (apply map_map_fin_inj; congruence). assert (V : fa_v a = fa_v a') by (apply map_map_fin_inj; congruence).
  assert (I : fa_illum a = fa_illum a') by (apply Ok_inj; congruence).
  split; [intros c k; unfold misfit|unfold snr_values].
  - rewrite U, V, I, A5, B5, A6, B6, A8, B8, A13, B13, A17, B17, A18, B18. reflexivity.
  - rewrite U, V, A8, B8. reflexivity.
Qed.

(** ** The row of a stored fit *)
Lemma results_row orc a s d n : results_in orc a s d -> (1 <= n <= fa_order_max a)%nat ->
  exists r, summarises s n d r /\ tr_name r = fa_name a /\ tr_meanel r = fa_meanel a /\ tr_date r = fa_date a /\ snr_values orc a = Ok (tr_snr r).
Proof.
  intros (_ & _ & _ & _ & _ & _ & (i & snrs & SN & HI & DE) & OR) Hn.
  destruct (OR n Hn) as (rows & out & r & [x y] & ph & cov & cor & idx & FR & LRows & _ & _ & _ & _ & _ & _ & _ & _ & _ & HP & CP & _).
  destruct (long_params _ _ _ _ _ HP) as (c0 & c1 & c2 & rest & HR). pose proof (phase_square _ _ _ _ _ _ _ _ HP) as SQ.
  assert (L3 : (3 <= 1000)%nat) by (apply Nat.leb_le; reflexivity).
  destruct (rms_of_map 1000 ph L3 SQ) as [l1 ER]. destruct (e_rs_of_map 1000 ph L3 SQ) as [l2 EE].
  destruct DE as (E1 & E2 & E3 & E4 & E5 & E6 & E7 & E8 & E9 & E10 & E11 & E12 & E13 & E14).
  exists {| tr_name := fa_name a; tr_tel_name := fa_tel_name a; tr_object := fa_object a; tr_date := fa_date a; tr_meanel := fa_meanel a;
            tr_i_amp := c0; tr_c_dB := c1; tr_q := c2; tr_rms := Fin (sqrt (disk_mean_square 1000 ph)); tr_e_rs := Fin (exp (- disk_mean_square 1000 ph)); tr_snr := snrs |}.
  cbn [tr_name tr_meanel tr_date tr_snr]. split; [|auto].
  exists i, rows, ("Phase-error radians " ^^ fa_name a), (map (map Fin) ph), 1000%nat, l1, l2, c0, c1, c2, rest. cbn [tr_name tr_tel_name tr_object tr_date tr_meanel tr_i_amp tr_c_dB tr_q tr_rms tr_e_rs tr_snr].
  rewrite E14. split; [exact HI|]. repeat (split; [congruence|]). split; [apply (snr_three _ _ _ SN)|]. split; [exact FR|]. split; [exact HR|]. do 3 (split; [reflexivity|]).
  split; [exact CP|]. split; [apply map_fin_square; exact SQ|]. split; [lia|]. split; assumption.
Qed.

(** ** Lists *)
Lemma NoDup_key {A B} (f : A -> B) l x y : NoDup (map f l) -> In x l -> In y l -> f x = f y -> x = y.
Proof.
  induction l as [|a l IH]; intros N; [intros []|]. cbn in N. apply NoDup_cons_iff in N as [N1 N2].
  intros [->|Hx] [->|Hy] E; [reflexivity| | |auto]; exfalso; apply N1; [rewrite E|rewrite <- E]; apply in_map; assumption.
Qed.
Lemma NoDup_filter_map {A B} (f : A -> B) p l : NoDup (map f l) -> NoDup (map f (filter p l)).
Proof.
  induction l as [|a l IH]; intros N; [constructor|]. cbn in N. apply NoDup_cons_iff in N as [N1 N2]. cbn. destruct (p a); [|auto]. cbn. constructor; [|auto].
  intros H. apply N1. apply in_map_iff in H as (b & <- & Hb). apply in_map. apply filter_In in Hb. apply Hb.
Qed.
Lemma Forall2_left {A B} (P : A -> B -> Prop) l m x : Forall2 P l m -> In x l -> exists y, In y m /\ P x y.
Proof. induction 1 as [|a b l m H F IH]; intros Hx; [destruct Hx|]. destruct Hx as [->|Hx]; [exists b; split; [left; reflexivity|exact H]|]. destruct (IH Hx) as (y & Y1 & Y2). exists y. split; [right; exact Y1|exact Y2]. Qed.
Lemma Forall2_right {A B} (P : A -> B -> Prop) l m y : Forall2 P l m -> In y m -> exists x, In x l /\ P x y.
Proof. induction 1 as [|a b l m H F IH]; intros Hy; [destruct Hy|]. destruct Hy as [->|Hy]; [exists a; split; [left; reflexivity|exact H]|]. destruct (IH Hy) as (x & Y1 & Y2). exists x. split; [right; exact Y1|exact Y2]. Qed.
Lemma Forall2_combine {A B} (P : A -> B -> Prop) l m : Forall2 P l m -> map fst (combine l m) = l /\ map snd (combine l m) = m /\ forall u, In u (combine l m) -> P (fst u) (snd u).
Proof.
  induction 1 as [|a b l m H F (I1 & I2 & I3)]; [repeat split; intros u []|]. cbn. rewrite I1, I2. repeat split. intros u [<-|Hu]; [exact H|auto].
Qed.
Lemma choose {A B} (P : A -> B -> Prop) l : (forall x, In x l -> exists y, P x y) -> exists m, Forall2 P l m.
Proof. induction l as [|x l IH]; intros H; [exists []; constructor|]. destruct (H x (or_introl eq_refl)) as [y Hy]. destruct IH as [m Hm]; [intros z Hz; apply H; right; exact Hz|]. exists (y :: m). constructor; assumption. Qed.

(** ** The directories after the batch *)
Lemma numbered_0 w name : numbered w name 0 = w ++ ["pyoof_out"; name ^^ "-000"].
Proof. reflexivity. Qed.
Lemma no_runs_room sc su stems s : sc_setups sc = [su] -> NoDup stems -> no_runs (sc_work_dir sc) s -> room sc stems s.
Proof.
  intros E ND NR stem Hs. rewrite E. cbn [length]. rewrite Nat.mul_1_r. pose proof (proj1 (NoDup_count_occ string_dec stems) ND stem) as C. apply (Nat.le_trans _ 1); [exact C|].
  unfold free_numbers. rewrite (filter_ext _ (fun _ => true)); [|intros j; unfold numbered; rewrite NR; reflexivity]. assert (X : forall l : list nat, filter (fun _ => true) l = l) by (induction l as [|x l IH]; cbn; [reflexivity|f_equal; exact IH]). rewrite X, seq_length. lia.
Qed.
Lemma observed_same cwd s f o1 o2 : observed cwd s f o1 -> observed cwd s f o2 -> o1 = o2.
Proof. unfold observed. intros H1 H2. rewrite H1 in H2. apply Ok_inj in H2. exact H2. Qed.
Lemma observed_names cwd s files stems obs : Forall2 (fun f stem => exists dir, names_fits f dir stem) files stems -> Forall2 (observed cwd s) files obs -> map ob_name obs = stems.
Proof.
  intros F. revert obs. induction F as [|f stem files stems [dir H] F IH]; intros obs G; inversion G; subst; [reflexivity|]. cbn. f_equal; [|auto].
  eapply observed_name; eauto.
Qed.
Lemma prod_one {A B} (l : list A) (b : B) : list_prod l [b] = map (fun a => (a, b)) l.
Proof. induction l as [|a l IH]; [reflexivity|]. cbn. rewrite IH. reflexivity. Qed.
Lemma Forall2_map_l {A B C} (g : A -> C) (P : C -> B -> Prop) l m : Forall2 P (map g l) m -> Forall2 (fun a => P (g a)) l m.
Proof. revert m; induction l as [|a l IH]; intros m H; inversion H; subst; constructor; auto. Qed.

Section After.
Variables (orc : oracle) (sc : script) (su : setup) (cwd : path) (files stems : list string) (s s1 : fs).
Hypothesis T : file_tree s.
Hypothesis SZ : sized_answers orc.
Hypothesis SU : sc_setups sc = [su].
Hypothesis OM : (1 <= sc_order_max sc)%nat.
Hypothesis IF : input_files cwd s files stems.
Hypothesis ND : NoDup stems.
Hypothesis NR : no_runs (sc_work_dir sc) s.
Hypothesis RB : run (batch orc sc cwd files) s = (Ok tt, s1).
Let w := sc_work_dir sc.

Lemma batch_dirs : unaltered s s1 /\ exists obs, Forall2 (observed cwd s) files obs /\ map ob_name obs = stems /\
  (forall ob, In ob obs -> exists a, fit_of sc ob su a /\ results_in orc a s1 (numbered w (ob_name ob) 0)) /\
  (forall c, s1 (w ++ ["pyoof_out"; c]) <> None -> exists ob, In ob obs /\ c = ob_name ob ^^ "-000").
Proof.
  destruct (batch_all orc sc cwd files stems s s1 T OM IF (no_runs_room sc su stems s SU ND NR) RB) as (UN & obs & dirs & OB & NDD & FD & FRAME).
  split; [exact UN|]. exists obs. split; [exact OB|]. pose proof (observed_names _ _ _ _ _ (proj1 IF) OB) as NM. split; [exact NM|].
  rewrite SU, prod_one in FD. apply Forall2_map_l in FD. cbn [fst snd] in FD. destruct (Forall2_combine _ _ _ FD) as (C1 & C2 & C3).
  assert (DIR : forall u, In u (combine obs dirs) -> exists a j, fit_of sc (fst u) su a /\ results_in orc a s1 (snd u) /\ snd u = numbered w (ob_name (fst u)) j /\
    forall i, (i < j)%nat -> s1 (numbered w (ob_name (fst u)) i) <> None).
  { intros u Hu. destruct (C3 u Hu) as (a & FO & _ & RI). exists a. destruct (RI) as ((j & _ & E & G) & _). exists j.
    destruct FO as (F1 & FO). assert (W : fit_dir a = w) by (unfold fit_dir; destruct FO as (_ & _ & _ & _ & _ & _ & _ & _ & _ & _ & _ & _ & _ & _ & _ & _ & _ & _ & _ & _ & ->); reflexivity).
    rewrite W, F1 in *. split; [split; assumption|]. auto. }
  assert (NDK : NoDup (map (fun u => ob_name (fst u)) (combine obs dirs))) by (rewrite <- (map_map fst ob_name), C1, NM; exact ND).
  assert (HIT : forall q, s1 q <> s q -> exists u, In u (combine obs dirs) /\ (above q (snd u) \/ below (snd u) q)).
  { intros q Hq. destruct (Exists_dec (fun d => above q d \/ below d q) dirs) as [X|X].
    - intros d. destruct (above_dec q d) as [A|A]; [left; left; exact A|]. destruct (above_dec d q) as [B|B]; [left; right; exact B|right; intros [Y|Y]; contradiction].
    - apply Exists_exists in X as (d & Hd & X). rewrite <- C2 in Hd. apply in_map_iff in Hd as (u & <- & Hu). exists u. auto.
    - exfalso. apply Hq, FRAME. intros d Hd. rewrite <- Forall_Exists_neg in X. rewrite Forall_forall in X. specialize (X d Hd). intros B. apply X. exact (belongs_near _ _ _ B). }
  assert (ZERO : forall u, In u (combine obs dirs) -> snd u = numbered w (ob_name (fst u)) 0).
  { intros u Hu. destruct (DIR u Hu) as (a & j & FO & RI & E & G). destruct j as [|j]; [exact E|]. exfalso.
    specialize (G 0%nat ltac:(lia)). destruct (HIT (numbered w (ob_name (fst u)) 0)) as (v & Hv & X).
    - rewrite numbered_0, NR. rewrite numbered_0 in G. exact G.
    - destruct (DIR v Hv) as (a' & j' & _ & _ & E' & _). rewrite E' in X. apply numbered_related in X as [X1 X2].
      assert (u = v) by (apply (NoDup_key _ _ _ _ NDK Hu Hv); exact X1). subst v. rewrite E in E'. apply numbered_inj in E' as [_ E']. lia. }
  split.
  - intros ob Ho. rewrite <- C1 in Ho. apply in_map_iff in Ho as (u & <- & Hu). destruct (DIR u Hu) as (a & _ & FO & RI & _). exists a. split; [exact FO|]. rewrite <- (ZERO u Hu). exact RI.
  - intros c Hc. destruct (HIT (w ++ ["pyoof_out"; c])) as (u & Hu & X); [unfold w; rewrite NR; exact Hc|]. exists (fst u).
    split; [rewrite <- C1; apply in_map; exact Hu|]. rewrite (ZERO u Hu), numbered_0 in X. destruct X as [[t E]|[t E]].
    + rewrite <- app_assoc in E. apply app_inv_head in E. destruct t; [|discriminate E]. cbn in E. injection E as E. congruence.
    + rewrite <- app_assoc in E. apply app_inv_head in E. destruct t; [|discriminate E]. cbn in E. injection E as E. congruence.
Qed.

Section Glob.
Variables (n : nat) (k : lookup_oracles) (runs : list path) (tab : list tab_row).
Hypothesis N : (1 <= n <= sc_order_max sc)%nat.
Hypothesis VIS : forall stem t, In stem stems -> stem <> String "." t.
Hypothesis GL : glob_000 s1 (w ++ ["pyoof_out"]) runs.
Hypothesis PM : forall t, Permutation t (lk_sort k t).

Lemma visible stem t : In stem stems -> stem ^^ "-000" <> String "." t.
Proof. intros H E. destruct stem as [|c stem]; [discriminate E|]. cbn in E. injection E as -> E. apply (VIS (String "." stem) stem H). reflexivity. Qed.

(** The runs listed and their rows. *)
Lemma glob_rows obs : map ob_name obs = stems ->
  (forall ob, In ob obs -> exists a, fit_of sc ob su a /\ results_in orc a s1 (numbered w (ob_name ob) 0)) ->
  (forall c, s1 (w ++ ["pyoof_out"; c]) <> None -> exists ob, In ob obs /\ c = ob_name ob ^^ "-000") ->
  (forall d, In d runs <-> exists ob, In ob obs /\ d = numbered w (ob_name ob) 0) /\
  (exists tb, Forall2 (summarises s1 n) runs tb) /\
  forall d r, In d runs -> summarises s1 n d r -> exists ob a rows, In ob obs /\ d = numbered w (ob_name ob) 0 /\ fit_of sc ob su a /\ tr_name r = ob_name ob /\ tr_meanel r = ob_meanel ob /\
    HStr (tr_date r) = ob_date ob /\ snr_values orc a = Ok (tr_snr r) /\ fitpar_rows s1 d n rows /\ length rows = (5 + coeffs n)%nat /\ found orc a n (map parfit rows).
Proof.
  intros NM H1 H2. assert (G : forall d, In d runs <-> exists ob, In ob obs /\ d = numbered w (ob_name ob) 0).
  { intros d. destruct GL as [_ G]. rewrite G. split.
    - intros (c & -> & _ & Hd). rewrite <- app_assoc in Hd. cbn [app] in Hd. destruct (H2 _ Hd) as (ob & Ho & E). exists ob. split; [exact Ho|]. rewrite numbered_0, <- app_assoc, E. reflexivity.
    - intros (ob & Ho & ->). exists (ob_name ob ^^ "-"). rewrite sapp_assoc. cbn [String.append]. rewrite numbered_0, <- app_assoc. split; [reflexivity|]. split.
      + intros t. apply visible. rewrite <- NM. apply in_map. exact Ho.
      + destruct (H1 ob Ho) as (a & _ & _ & E & _). rewrite numbered_0 in E. rewrite E. discriminate. }
  assert (R : forall d, In d runs -> exists ob a r rows, In ob obs /\ d = numbered w (ob_name ob) 0 /\ fit_of sc ob su a /\ summarises s1 n d r /\ tr_name r = ob_name ob /\ tr_meanel r = ob_meanel ob /\
    HStr (tr_date r) = ob_date ob /\ snr_values orc a = Ok (tr_snr r) /\ fitpar_rows s1 d n rows /\ length rows = (5 + coeffs n)%nat /\ found orc a n (map parfit rows)).
  { intros d Hd. apply G in Hd as (ob & Ho & ->). destruct (H1 ob Ho) as (a & FO & RI).
    pose proof FO as (F1 & _ & F3 & _ & _ & _ & F7 & _ & _ & _ & _ & _ & _ & _ & _ & F16 & _ & _ & F19 & _).
    destruct (results_row orc a s1 _ n RI) as (r & R1 & R2 & R3 & R4 & R5); [rewrite F16; exact N|].
    destruct (stored_found orc a s1 _ SZ F19 RI n) as (rows & S1 & S2 & S3); [rewrite F16; exact N|].
    exists ob, a, r, rows. split; [exact Ho|]. split; [reflexivity|]. split; [exact FO|]. split; [exact R1|]. split; [congruence|]. split; [congruence|]. split; [congruence|]. auto. }
  split; [exact G|]. split.
  - apply choose. intros d Hd. destruct (R d Hd) as (ob & a & r & rows & _ & _ & _ & X & _). exists r. exact X.
  - intros d r Hd Hr. destruct (R d Hd) as (ob & a & r' & rows & X1 & X2 & X3 & X4 & X5). rewrite (summarises_unique _ _ _ _ _ Hr X4). exists ob, a, rows. split; [exact X1|]. split; [exact X2|]. split; [exact X3|]. exact X5.
Qed.

Definition linked (r : tab_row) (u : observation * list R) : Prop :=
  counts orc sc su cwd s files n (fst u) (snd u) /\ tr_name r = ob_name (fst u) /\ tr_meanel r = ob_meanel (fst u) /\
  row_coeffs s1 (w ++ ["pyoof_out"]) n (coeffs n) r (snd u).
Lemma glob_used : Forall2 (summarises s1 n) runs tab ->
  exists us, Forall2 linked (filter selected_row (lk_sort k tab)) us /\ NoDup us /\ forall ob K, In (ob, K) us <-> counts orc sc su cwd s files n ob K.
Proof.
  intros FT. destruct batch_dirs as (_ & obs & OB & NM & H1 & H2). destruct (glob_rows obs NM H1 H2) as (G & _ & R).
  assert (NDT : NoDup (map tr_name tab)).
  { apply (NoDup_map_inv (fun c => numbered w c 0)). rewrite map_map. replace (map (fun x => numbered w (tr_name x) 0) tab) with runs; [apply GL|].
    assert (X : forall d r, In d runs -> summarises s1 n d r -> d = numbered w (tr_name r) 0) by (intros d r Hd Hr; destruct (R d r Hd Hr) as (ob & a & rows & _ & E & _ & E2 & _); rewrite E2; exact E).
    clear -FT X. induction FT as [|d r ds rs H F IH]; [reflexivity|]. cbn. f_equal; [apply X; [left; reflexivity|exact H]|apply IH; intros; apply X; [right|]; assumption]. }
  assert (IN : forall r, In r (lk_sort k tab) <-> In r tab) by (intros r; split; apply Permutation_in; [apply Permutation_sym|]; apply PM).
  assert (NDR : NoDup (map tr_name (filter selected_row (lk_sort k tab)))) by (apply NoDup_filter_map; eapply Permutation_NoDup; [apply Permutation_map, PM|exact NDT]).
  destruct (choose linked (filter selected_row (lk_sort k tab))) as [us FU].
  { intros r Hr. apply filter_In in Hr as [Hr SEL]. apply IN in Hr. destruct (Forall2_right _ _ _ _ FT Hr) as (d & Hd & Hs).
    destruct (R d r Hd Hs) as (ob & a & rows & Ho & Ed & FO & E1 & E2 & _ & E3 & E4 & E5 & E6). exists (ob, skipn 5 (map parfit rows)). unfold linked. cbn [fst snd].
    apply selected_iff in SEL as [SE1 SE2]. rewrite E1 in SE2. split; [|split; [exact E1|split; [exact E2|]]].
    - destruct (Forall2_right _ _ _ _ OB Ho) as (f & Hf & Of). exists f, a, (map parfit rows), (tr_snr r). split; [exact Hf|]. split; [exact Of|]. split; [exact FO|]. split; [exact E6|]. split; [reflexivity|]. auto.
    - exists rows. split; [rewrite <- app_assoc, E1; cbn [app]; rewrite <- numbered_0, <- Ed; exact E4|]. left. split; [reflexivity|]. rewrite skipn_length, map_length, E5. lia. }
  exists us. split; [exact FU|]. split.
  - apply (NoDup_map_inv (fun u => ob_name (fst u))). replace (map (fun u => ob_name (fst u)) us) with (map tr_name (filter selected_row (lk_sort k tab))); [exact NDR|].
    clear -FU. induction FU as [|r u rs us (_ & E & _) F IH]; [reflexivity|]. cbn. f_equal; assumption.
  - intros ob K. split; intros H.
    + destruct (Forall2_right _ _ _ _ FU H) as (r & _ & L & _). exact L.
    + pose proof H as (f & a & p & snrs & Hf & Of & FO & FN & EK & SN & AB & OF).
      assert (Ho : In ob obs) by (destruct (Forall2_left _ _ _ _ OB Hf) as (ob' & Ho & Of'); rewrite (observed_same _ _ _ _ _ Of Of'); exact Ho).
      assert (Hd : In (numbered w (ob_name ob) 0) runs) by (apply G; exists ob; auto).
      destruct (Forall2_left _ _ _ _ FT Hd) as (r & Hr & Hs). destruct (R _ r Hd Hs) as (ob' & a' & rows & Ho' & E' & FO' & E1 & _ & _ & SN' & _).
      apply numbered_inj in E' as [E' _]. assert (ob = ob') by (apply (NoDup_key ob_name obs); [rewrite NM; exact ND|exact Ho|exact Ho'|exact E']). subst ob'.
      destruct (fit_of_same _ _ _ _ _ orc FO FO') as [_ ES]. rewrite ES, SN' in SN. apply Ok_inj in SN.
      assert (HR : In r (filter selected_row (lk_sort k tab))) by (apply filter_In; split; [apply IN; exact Hr|apply selected_iff; split; [rewrite SN; exact AB|rewrite E1; exact OF]]).
      destruct (Forall2_left _ _ _ _ FU HR) as ([ob2 K2] & Hu & (f2 & a2 & p2 & sn2 & Hf2 & Of2 & FO2 & FN2 & EK2 & _) & EN & _). cbn [fst snd] in *.
      assert (Ho2 : In ob2 obs) by (destruct (Forall2_left _ _ _ _ OB Hf2) as (o' & Ho2 & Of2'); rewrite (observed_same _ _ _ _ _ Of2 Of2'); exact Ho2).
      assert (ob = ob2) by (apply (NoDup_key ob_name obs); [rewrite NM; exact ND|exact Ho|exact Ho2|congruence]). subst ob2.
      destruct (fit_of_same _ _ _ _ _ orc FO FO2) as [ME _]. assert (p = p2) by (apply (found_unique orc a2 n); [apply (found_same orc a a2); [intros; apply ME|exact FN]|exact FN2]). subst p2. rewrite EK, <- EK2. exact Hu.
Qed.
End Glob.
End After.
