(** When a sample falls on the limit; concurrent simulations; concrete runs. *)
From Coq Require Import String Ascii List Znumtheory Zpow_facts.
From Verif Require Import PyBase PyLib Num MZernike MMath MAperture MTel MRad MFs MAct MAux MSim SAux SSim SFit SOut PStr PFs PCrash PConc PRad PAux PWave PIllum PSim PSim2 PDemo.
From Coquelicot Require Import Complex.
Import ListNotations.
Open Scope R_scope.
Open Scope string_scope.
Open Scope list_scope.
Open Scope prog_scope.

Lemma on_limit a z u v F i : physical a -> beam_of a z = Ok (u, v, F) -> (i < si_resolution a)%nat ->
  (Rabs (nth i u 0) = sim_limit a <-> Rabs (INR i - INR (si_resolution a / 2)) * (INR (si_resolution a) - 1) = 9.76 * si_box_factor a * INR (si_resolution a)).
Proof.
  intros (W & P & X) B I. destruct (axes_api _ _ _ _ _ _ _ _ _ _ _ W P X B) as (_ & _ & _ & _ & N2 & S & Nth & _). cbv zeta in S, Nth.
  rewrite (Nth i I), Rabs_mult, (Rabs_right (si_wavel a * _ / _)) by lra. unfold sim_limit.
  set (N := si_resolution a) in *. set (d := Rabs (INR i - INR (N / 2))).
  assert (HN : INR N <> 0) by (apply not_0_INR; lia).
  assert (Q' : d * (si_wavel a * (INR N - 1) / (2 * (si_box_factor a * tel_pr (si_tel a)) * INR N)) - 8 * (1.22 * si_wavel a / (2 * tel_pr (si_tel a)))
     = (d * (INR N - 1) - 9.76 * si_box_factor a * INR N) * (si_wavel a / (2 * (si_box_factor a * tel_pr (si_tel a)) * INR N))).
  { replace 9.76 with (8 * 1.22) by lra. set (q := 1.22). field. repeat split; lra. }
  assert (K : si_wavel a / (2 * (si_box_factor a * tel_pr (si_tel a)) * INR N) <> 0).
  { unfold Rdiv. apply Rmult_integral_contrapositive_currified; [lra|]. apply Rinv_neq_0_compat. repeat apply Rmult_integral_contrapositive_currified; lra. }
  split; intros H.
  - assert (Z0 : (d * (INR N - 1) - 9.76 * si_box_factor a * INR N) * (si_wavel a / (2 * (si_box_factor a * tel_pr (si_tel a)) * INR N)) = 0) by (rewrite <- Q'; lra).
    apply Rmult_integral in Z0. destruct Z0 as [Z0|Z0]; [lra|contradiction].
  - assert (Z0 : d * (INR N - 1) - 9.76 * si_box_factor a * INR N = 0) by lra. rewrite Z0, Rmult_0_l in Q'. lra.
Qed.
Lemma clear_iff a z u v F : physical a -> beam_of a z = Ok (u, v, F) ->
  (clear_of u (sim_limit a) <-> forall i, (i < si_resolution a)%nat ->
     Rabs (INR i - INR (si_resolution a / 2)) * (INR (si_resolution a) - 1) <> 9.76 * si_box_factor a * INR (si_resolution a)).
Proof.
  intros Ph B. pose proof Ph as (W & P & X). destruct (axes_api _ _ _ _ _ _ _ _ _ _ _ W P X B) as (_ & Lu & _). split.
  - intros C i I H. apply (on_limit a z u v F i Ph B I) in H. apply (C (nth i u 0)); [apply nth_In; lia|exact H].
  - intros C x Hx E. apply (In_nth _ _ 0) in Hx. destruct Hx as (i & I & <-). rewrite Lu in I. apply (on_limit a z u v F i Ph B I) in E. exact (C i I E).
Qed.

Lemma power2_arith p b i : (0 < b)%nat -> (i < 2 ^ p)%nat -> Rabs (INR i - INR (2 ^ p / 2)) * (INR (2 ^ p) - 1) <> 9.76 * INR b * INR (2 ^ p).
Proof.
  intros Hb I H.
  set (N := (2 ^ p)%nat) in *. assert (HN : (0 < N)%nat) by lia.
  set (m := Z.abs (Z.of_nat i - Z.of_nat (N / 2))).
  assert (Em : Rabs (INR i - INR (N / 2)) = IZR m) by (unfold m; rewrite abs_IZR, minus_IZR, <- !INR_IZR_INZ; reflexivity).
  rewrite Em in H.
  assert (Hz : (25 * m * (Z.of_nat N - 1) = 244 * Z.of_nat b * Z.of_nat N)%Z).
  { apply eq_IZR. rewrite !mult_IZR, minus_IZR, <- !INR_IZR_INZ. lra. }
  assert (Ml : (0 <= m < Z.of_nat N)%Z).
  { unfold m. pose proof (Nat.div_lt_upper_bound N 2 N ltac:(lia) ltac:(lia)). lia. }
  assert (D : (Z.of_nat N | m)%Z).
  { assert (RP : rel_prime (Z.of_nat N) (25 * (Z.of_nat N - 1))).
    { apply rel_prime_sym. unfold N. rewrite Nat2Z.inj_pow. change (Z.of_nat 2) with 2%Z. apply rel_prime_Zpower_r; [lia|].
      destruct p as [|p']; [exfalso; assert (N1 : N = 1%nat) by reflexivity; rewrite N1 in Ml, Hz; assert (M0 : m = 0%Z) by lia; rewrite M0 in Hz; lia|].
      replace (2 ^ Z.of_nat (S p'))%Z with (2 * 2 ^ Z.of_nat p')%Z by (rewrite Nat2Z.inj_succ, Z.pow_succ_r by lia; reflexivity).
      apply bezout_rel_prime. apply Bezout_intro with 1%Z (13 - 25 * 2 ^ Z.of_nat p')%Z. lia. }
    apply Gauss with (25 * (Z.of_nat N - 1))%Z; [|exact RP]. exists (244 * Z.of_nat b)%Z. lia. }
  assert (M0 : (m = 0)%Z). { destruct (Z.eq_dec m 0) as [|Nz]; [assumption|]. apply Z.divide_pos_le in D; lia. }
  rewrite M0, Z.mul_0_r, Z.mul_0_l in Hz. symmetry in Hz. apply Z.mul_eq_0 in Hz. lia.
Qed.

(** Two simulations in one directory. *)
Lemma sim_program orc a T : check_d_z (si_d_z a) = Ok tt -> sim_tables orc a = Ok T ->
  simulate_data_pyoof orc a = Do (Exists (gen_dir a)) (fun b => bindP (if b then Ret tt else makedirs (gen_dir a) false) (fun _ => sim_store orc a T (seq 0 101))).
Proof. intros EC ET. unfold simulate_data_pyoof. rewrite EC. cbn [lift bindP]. rewrite ET. reflexivity. Qed.

Lemma il_true {A B X} t (o : op X) (k : X -> prog A) (q : prog B) s : interleave (true :: t) (Do o k) q s = interleave t (k (fst (exec o s))) q (snd (exec o s)).
Proof. cbn. destruct (exec o s). reflexivity. Qed.
Lemma il_false {A B X} t (o : op X) (k : X -> prog B) (p : prog A) s : interleave (false :: t) p (Do o k) s = interleave t p (k (fst (exec o s))) (snd (exec o s)).
Proof. cbn. destruct (exec o s). reflexivity. Qed.
Lemma walk_true {B} orc a T (q : prog B) t s m : forall k n, (forall i, (k <= i < k + m)%nat -> s (sim_file a i) <> None) -> (m <= n)%nat ->
  interleave (repeat true m ++ t) (sim_store orc a T (seq k n)) q s = interleave t (sim_store orc a T (seq (k + m) (n - m))) q s.
Proof.
  induction m as [|m IH]; intros k n H L.
  - rewrite Nat.add_0_r, Nat.sub_0_r. reflexivity.
  - destruct n as [|n]; [lia|]. change (repeat true (S m) ++ t) with (true :: repeat true m ++ t). change (seq k (S n)) with (k :: seq (S k) n). cbn [sim_store call bindP]. rewrite il_true. cbn [exec fst snd].
    pose proof (H k ltac:(lia)) as X. destruct (s (sim_file a k)) eqn:E; [|contradiction]. rewrite IH by (try lia; intros i Hi; apply H; lia).
    replace (S k + m)%nat with (k + S m)%nat by lia. reflexivity.
Qed.
Lemma walk_false {A} orc a T (p : prog A) t s m : forall k n, (forall i, (k <= i < k + m)%nat -> s (sim_file a i) <> None) -> (m <= n)%nat ->
  interleave (repeat false m ++ t) p (sim_store orc a T (seq k n)) s = interleave t p (sim_store orc a T (seq (k + m) (n - m))) s.
Proof.
  induction m as [|m IH]; intros k n H L.
  - rewrite Nat.add_0_r, Nat.sub_0_r. reflexivity.
  - destruct n as [|n]; [lia|]. change (repeat false (S m) ++ t) with (false :: repeat false m ++ t). change (seq k (S n)) with (k :: seq (S k) n). cbn [sim_store call bindP]. rewrite il_false. cbn [exec fst snd].
    pose proof (H k ltac:(lia)) as X. destruct (s (sim_file a k)) eqn:E; [|contradiction]. rewrite IH by (try lia; intros i Hi; apply H; lia).
    replace (S k + m)%nat with (k + S m)%nat by lia. reflexivity.
Qed.
Lemma sim_race oa ob a b s Ta Tb j : si_work_dir a = si_work_dir b -> s (gen_dir a) = Some Dir -> (j <= 100)%nat -> s (sim_file a j) = None ->
  (forall i, (i < j)%nat -> s (sim_file a i) <> None) ->
  check_d_z (si_d_z a) = Ok tt -> sim_tables oa a = Ok Ta -> check_d_z (si_d_z b) = Ok tt -> sim_tables ob b = Ok Tb ->
  exists sched s', interleave sched (simulate_data_pyoof oa a) (simulate_data_pyoof ob b) s = (Ret (sim_fits oa a Ta j), Ret (sim_fits ob b Tb j), s') /\
    s' (sim_file a j) = Some (File (Fits (sim_fits ob b Tb j))) /\ forall q, q <> sim_file a j -> s' q = s q.
Proof.
  intros Ew D J N Q CA TA CB TB. rewrite (sim_program oa a Ta CA TA), (sim_program ob b Tb CB TB).
  assert (Eg : gen_dir b = gen_dir a) by (unfold gen_dir; rewrite Ew; reflexivity).
  assert (Ef : forall i, sim_file b i = sim_file a i) by (intros i; unfold sim_file; rewrite Ew; reflexivity).
  rewrite Eg. exists (true :: repeat true j ++ [true; true] ++ false :: repeat false j ++ [false; false; true; true; false; false]).
  exists (upd (upd (upd (upd s (sim_file a j) (File Partial)) (sim_file a j) (File (Fits (sim_fits oa a Ta j)))) (sim_file a j) (File Partial)) (sim_file a j) (File (Fits (sim_fits ob b Tb j)))).
  split; [|split; [apply upd_same|intros q HQ; rewrite !upd_other by exact HQ; reflexivity]].
  assert (P0 : parent (sim_file a j) = gen_dir a) by apply sim_file_parent.
  rewrite il_true. cbn [exec fst snd]. rewrite D. cbn [bindP]. rewrite walk_true by (try lia; intros i Hi; apply Q; lia).
  replace (101 - j)%nat with (S (100 - j)) by lia. rewrite Nat.add_0_l. change (seq j (S (100 - j))) with (j :: seq (S j) (100 - j)). cbn [app].
  cbn [sim_store call bindP]. do 2 (rewrite il_true; cbn [exec fst snd]; rewrite ?Ef, ?D, ?N, ?upd_same, ?P0, ?D; cbn [lift bindP sim_store writeto write_file call callE]; rewrite ?Ef).
  rewrite il_false. cbn [exec fst snd]. rewrite D. cbn [bindP]. rewrite walk_false by (try lia; intros i Hi; rewrite Ef; apply Q; lia).
  replace (101 - j)%nat with (S (100 - j)) by lia. rewrite Nat.add_0_l. change (seq j (S (100 - j))) with (j :: seq (S j) (100 - j)). cbn [app].
  cbn [sim_store call bindP]. do 8 (rewrite ?il_true, ?il_false; cbn [exec fst snd]; rewrite ?Ef, ?D, ?N, ?upd_same, ?P0, ?D; cbn [lift bindP sim_store writeto write_file call callE]; rewrite ?Ef).
  cbn [interleave]. reflexivity.
Qed.
Lemma sim_race_alone oa ob a b s fa fb sa sb : wf s -> si_work_dir a = si_work_dir b -> s (gen_dir a) = Some Dir ->
  run (simulate_data_pyoof oa a) s = (Ok fa, sa) -> run (simulate_data_pyoof ob b) s = (Ok fb, sb) ->
  exists sched s' j, interleave sched (simulate_data_pyoof oa a) (simulate_data_pyoof ob b) s = (Ret fa, Ret fb, s') /\
    s (sim_file a j) = None /\ sa (sim_file a j) = Some (File (Fits fa)) /\ s' (sim_file a j) = Some (File (Fits fb)) /\ forall q, q <> sim_file a j -> s' q = s q.
Proof.
  intros WF Ew D RA RB. destruct (sim_success oa a s fa sa WF RA) as (Ta & j & CA & TA & -> & J & N & Q & W & _). destruct (sim_success ob b s fb sb WF RB) as (Tb & k & CB & TB & -> & K & N' & Q' & _).
  assert (Ef : forall i, sim_file b i = sim_file a i) by (intros i; unfold sim_file; rewrite Ew; reflexivity).
  assert (E : k = j).
  { rewrite Ef in N'. destruct (Nat.lt_trichotomy k j) as [L|[L|L]]; [exfalso; exact (Q k L N')|exact L|exfalso; apply (Q' j L); rewrite Ef; exact N]. }
  subst k. destruct (sim_race oa ob a b s Ta Tb j Ew D J N Q CA TA CB TB) as (sched & s' & R & Hs & Ho). exists sched, s', j. auto.
Qed.
Lemma sim_full_anywhere orc a s0 f s1 s : wf s0 -> run (simulate_data_pyoof orc a) s0 = (Ok f, s1) -> s (gen_dir a) <> None ->
  (forall j, (j <= 100)%nat -> s (sim_file a j) <> None) -> run (simulate_data_pyoof orc a) s = (Err UnboundLocalError, s).
Proof. intros WF R D H. destruct (sim_success orc a s0 f s1 WF R) as (T & j & C & ET & _). exact (sim_full orc a s T C ET D H). Qed.

(** When a simulation finds its fields. *)
Lemma beams_exist a z0 z1 z2 W Ea : (2 <= si_resolution a)%nat -> wavefront (si_K a) = Ok W -> si_illum a (si_I a) (tel_pr (si_tel a)) = Ok Ea ->
  exists u F0 F1 F2, beams a z0 z1 z2 u F0 F1 F2.
Proof.
  intros N HW HE.
  assert (X : exists u, forall z, exists v F, beam_of a z = Ok (u, v, F)).
  { eexists. intros z. unfold beam_of. rewrite rad_unfold by exact N. cbv zeta. unfold aperture. rewrite HW. cbn [bind]. rewrite HE. cbn [bind]. eexists _, _. reflexivity. }
  destruct X as (u & X). destruct (X z0) as (v0 & F0 & B0). destruct (X z1) as (v1 & F1 & B1). destruct (X z2) as (v2 & F2 & B2).
  exists u, F0, F1, F2, v0, v1, v2. auto.
Qed.
Lemma sim_total orc a s z0 z1 z2 rest W Ea : physical a -> (2 <= si_resolution a)%nat -> wavefront (si_K a) = Ok W -> si_illum a (si_I a) (tel_pr (si_tel a)) = Ok Ea ->
  si_d_z a = z0 :: z1 :: z2 :: rest -> offsets_ok z0 z1 z2 ->
  (forall i, (i < si_resolution a)%nat -> Rabs (INR i - INR (si_resolution a / 2)) * (INR (si_resolution a) - 1) <> 9.76 * si_box_factor a * INR (si_resolution a)) ->
  wf s -> sim_usable a s -> (exists j, (j <= 100)%nat /\ s (sim_file a j) = None) ->
  exists f s', run (simulate_data_pyoof orc a) s = (Ok f, s').
Proof.
  intros Ph N HW HE E O C WF U J. destruct (beams_exist a z0 z1 z2 W Ea N HW HE) as (u & F0 & F1 & F2 & B).
  pose proof B as (v0 & v1 & v2 & B0 & _).
  assert (Cl : clear_of u (sim_limit a)) by (apply (clear_iff a z0 u v0 F0 Ph B0); exact C).
  destruct (tables_clear orc a z0 z1 z2 rest u F0 F1 F2 Ph E B Cl) as (t0 & t1 & t2 & i0 & k & ET & _).
  apply (sim_runs orc a s [t0; t1; t2] WF U); [rewrite E; apply check_ok; exact O|exact ET|exact J].
Qed.
Lemma sim_hit orc a i z0 z1 z2 rest W Ea : physical a -> (2 <= si_resolution a)%nat -> wavefront (si_K a) = Ok W -> si_illum a (si_I a) (tel_pr (si_tel a)) = Ok Ea ->
  si_d_z a = z0 :: z1 :: z2 :: rest -> (i < si_resolution a)%nat ->
  Rabs (INR i - INR (si_resolution a / 2)) * (INR (si_resolution a) - 1) = 9.76 * si_box_factor a * INR (si_resolution a) ->
  simulate_data_pyoof orc a = Raise ValueError.
Proof.
  intros Ph N HW HE E I H. destruct (beams_exist a z0 z1 z2 W Ea N HW HE) as (u & F0 & F1 & F2 & B).
  apply (sim_on_limit orc a z0 z1 z2 rest u F0 F1 F2 Ph E B). intros C. destruct B as (v0 & v1 & v2 & B0 & _).
  apply (proj1 (clear_iff a z0 u v0 F0 Ph B0) C i I H).
Qed.

(** Concrete simulations: a trimmed map, and one with a sample on the limit. *)
Definition demo_sim (N : nat) (bf : R) (d_z : list R) : sim_args := {|
  si_I := [1; -14; 2; 0; 0]; si_K := [1; 2; 3]; si_wavel := 1 / 100; si_d_z := d_z; si_illum := illum_parabolic; si_tel := demo_tel;
  si_noise := 1 / 10; si_resolution := N; si_box_factor := bf; si_work_dir := ["w"] |}.
Definition demo_outside : sim_oracles := {| so_f32 := Fin; so_normal := fun x i r c => x * INR (i + r + c); so_now := "now" |}.
Definition sim_fs : fs := listed [[]; ["w"]; ["w"; "data_generated"]] ["w"; "data_generated"; "test000.fits"].
Lemma sim_tree : file_tree sim_fs.
Proof.
  apply listed_tree; [left; reflexivity| |exists ["w"; "data_generated"], "test000.fits"; split; [reflexivity|right; right; left; reflexivity]].
  intros p c H. cbn [In] in *. destruct H as [H|[H|[H|[]]]].
  - destruct p; discriminate H.
  - change ["w"] with ([] ++ ["w"]) in H. apply app_inj_tail in H. destruct H as [<- _]. auto.
  - change ["w"; "data_generated"] with (["w"] ++ ["data_generated"]) in H. apply app_inj_tail in H. destruct H as [<- _]. auto.
Qed.
Lemma demo_physical N bf d_z : 0 < bf -> physical (demo_sim N bf d_z).
Proof. intros H. unfold physical. cbn. repeat split; lra. Qed.
Lemma demo_wave N bf d_z : exists W Ea, wavefront (si_K (demo_sim N bf d_z)) = Ok W /\ si_illum (demo_sim N bf d_z) (si_I (demo_sim N bf d_z)) (tel_pr (si_tel (demo_sim N bf d_z))) = Ok Ea.
Proof.
  destruct (wavefront_series [1; 2; 3] 1 eq_refl) as (W & HW & _). destruct (proj1 (par_arity [1; -14; 2; 0; 0] 50) eq_refl) as [Ea EI].
  exists W, Ea. split; assumption.
Qed.
Lemma demo_sim_runs N bf d_z z0 z1 z2 : (2 <= N)%nat -> 0 < bf -> d_z = [z0; z1; z2] -> offsets_ok z0 z1 z2 ->
  (forall i, (i < N)%nat -> Rabs (INR i - INR (N / 2)) * (INR N - 1) <> 9.76 * bf * INR N) ->
  exists f s', run (simulate_data_pyoof demo_outside (demo_sim N bf d_z)) sim_fs = (Ok f, s').
Proof.
  intros HN Hb -> O C. destruct (demo_wave N bf [z0; z1; z2]) as (W & Ea & HW & HE).
  apply (sim_total demo_outside (demo_sim N bf [z0; z1; z2]) sim_fs z0 z1 z2 [] W Ea (demo_physical N bf _ Hb) HN HW HE eq_refl O C sim_tree).
  - split; [reflexivity|right; reflexivity].
  - exists 1%nat. split; [lia|]. unfold sim_fs, listed. destruct (in_dec _ _ _) as [I|_]; [exfalso; cbn in I; intuition discriminate|]. destruct (path_eq_dec _ _); [discriminate|reflexivity].
Qed.
