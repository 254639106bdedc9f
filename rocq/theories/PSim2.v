(** simulate_data_pyoof: the tables, the number, the file. *)
From Coq Require Import String Ascii List.
From Verif Require Import PyBase PyLib Num MZernike MMath MAperture MRad MFs MAct MAux MSim SAux SSim SFit SOut PStr PFs PCrash PConc PRad PAux PSim.
From Coquelicot Require Import Complex.
Import ListNotations.
Open Scope R_scope.
Open Scope string_scope.
Open Scope list_scope.
Open Scope prog_scope.


Lemma entry_here {A} k (v : A) l : entry k ((k, v) :: l) v.
Proof. exists [], l. split; [reflexivity|intros x []]. Qed.
Lemma entry_there {A} k k' (w v : A) l : k <> k' -> entry k l v -> entry k ((k', w) :: l) v.
Proof. intros N (a & b & -> & H). exists ((k', w) :: a), b. split; [reflexivity|]. intros x [<-|X]; [cbn; congruence|exact (H x X)]. Qed.

Lemma table_holds orc noise i z u F i0 k :
  holds_map (sim_table orc noise i z (rows k (fun _ c => nth (i0 + c) u 0), rows k (fun r _ => nth (i0 + r) u 0), rows k (fun r c => Cmod (at2 F (i0 + r) (i0 + c)) ^ 2)))
    (sim_columns orc noise i u F i0 k) z.
Proof.
  unfold holds_map, sim_columns, map_in, sim_table. cbn [th_cols th_header]. rewrite add_noise_rows. unfold block.
  split; [|split; [|split]].
  - apply entry_there; [discriminate|]. apply entry_there; [discriminate|]. apply entry_here.
  - apply entry_here.
  - apply entry_there; [discriminate|]. apply entry_here.
  - apply entry_here.
Qed.

Lemma tables_unfold orc a z0 z1 z2 rest : si_d_z a = z0 :: z1 :: z2 :: rest -> sim_tables orc a =
  bind (sim_map a z0) (fun m0 => bind (sim_map a z1) (fun m1 => bind (sim_map a z2) (fun m2 =>
    Ok [sim_table orc (si_noise a) 0 z0 m0; sim_table orc (si_noise a) 1 z1 m1; sim_table orc (si_noise a) 2 z2 m2]))).
Proof.
  intros E. unfold sim_tables. rewrite E. cbn [mapM py_get nth_error bind]. destruct (sim_map a z0); [|reflexivity]. cbn [bind].
  destruct (sim_map a z1); [|reflexivity]. cbn [bind]. destruct (sim_map a z2); reflexivity.
Qed.


Lemma tables_clear orc a z0 z1 z2 rest u F0 F1 F2 : physical a -> si_d_z a = z0 :: z1 :: z2 :: rest -> beams a z0 z1 z2 u F0 F1 F2 ->
  clear_of u (sim_limit a) ->
  exists t0 t1 t2 i0 k, sim_tables orc a = Ok [t0; t1; t2] /\ window u (sim_limit a) i0 k /\ (0 < k)%nat /\
    th_name t0 = "MINUS OOF" /\ th_name t1 = "ZERO OOF" /\ th_name t2 = "PLUS OOF" /\
    holds_map t0 (sim_columns orc (si_noise a) 0 u F0 i0 k) z0 /\ holds_map t1 (sim_columns orc (si_noise a) 1 u F1 i0 k) z1 /\
    holds_map t2 (sim_columns orc (si_noise a) 2 u F2 i0 k) z2.
Proof.
  intros Ph E (v0 & v1 & v2 & B0 & B1 & B2) C. destruct (axis_window a z0 u v0 F0 Ph B0) as (i0 & k & W & K).
  rewrite (tables_unfold orc a z0 z1 z2 rest E).
  rewrite (sim_map_ok a z0 u v0 F0 i0 k Ph B0 C W), (sim_map_ok a z1 u v1 F1 i0 k Ph B1 C W), (sim_map_ok a z2 u v2 F2 i0 k Ph B2 C W).
  cbn [bind]. eexists _, _, _, i0, k. split; [reflexivity|]. split; [exact W|]. split; [exact K|].
  split; [reflexivity|]. split; [reflexivity|]. split; [reflexivity|]. split; [apply table_holds|]. split; apply table_holds.
Qed.
Lemma tables_inv orc a z0 z1 z2 rest T : physical a -> si_d_z a = z0 :: z1 :: z2 :: rest -> sim_tables orc a = Ok T ->
  exists u F0 F1 F2, beams a z0 z1 z2 u F0 F1 F2 /\ clear_of u (sim_limit a).
Proof.
  intros Ph E. rewrite (tables_unfold orc a z0 z1 z2 rest E).
  destruct (sim_map a z0) as [m0|] eqn:M0; [|discriminate]. destruct (sim_map a z1) as [m1|] eqn:M1; [|discriminate].
  destruct (sim_map a z2) as [m2|] eqn:M2; [|discriminate]. intros _.
  assert (X : forall z m, sim_map a z = Ok m -> exists u v F, beam_of a z = Ok (u, v, F)).
  { intros z m M. unfold sim_map in M. fold (beam_of a z) in M. destruct (beam_of a z) as [[[u v] F]|]; [|discriminate]. eauto. }
  destruct (X _ _ M0) as (u & v0 & F0 & B0). destruct (X _ _ M1) as (u1 & v1 & F1 & B1). destruct (X _ _ M2) as (u2 & v2 & F2 & B2).
  pose proof (same_axis a z0 z1 u v0 F0 u1 v1 F1 B0 B1). pose proof (same_axis a z0 z2 u v0 F0 u2 v2 F2 B0 B2). subst u1 u2.
  exists u, F0, F1, F2. split; [exists v0, v1, v2; auto|].
  destruct (clear_dec u (sim_limit a)) as [C|C]; [exact C|]. rewrite (sim_map_err a z0 u v0 F0 Ph B0 C) in M0. discriminate.
Qed.
Lemma tables_limit orc a z0 z1 z2 rest u F0 F1 F2 : physical a -> si_d_z a = z0 :: z1 :: z2 :: rest -> beams a z0 z1 z2 u F0 F1 F2 ->
  ~ clear_of u (sim_limit a) -> sim_tables orc a = Err ValueError.
Proof.
  intros Ph E (v0 & v1 & v2 & B0 & B1 & B2) C. rewrite (tables_unfold orc a z0 z1 z2 rest E), (sim_map_err a z0 u v0 F0 Ph B0 C). reflexivity.
Qed.

Lemma check_ok z0 z1 z2 rest : offsets_ok z0 z1 z2 -> check_d_z (z0 :: z1 :: z2 :: rest) = Ok tt.
Proof.
  intros (A & B & C). unfold check_d_z. cbn [py_get nth_error bind].
  destruct (Rltb_spec 0 z0); [lra|]. destruct (Reqb_spec z1 0); [|lra]. cbn [negb]. destruct (Rltb_spec z2 0); [lra|reflexivity].
Qed.
Lemma check_bad z0 z1 z2 rest : ~ offsets_ok z0 z1 z2 -> check_d_z (z0 :: z1 :: z2 :: rest) = Err ValueError.
Proof.
  intros N. unfold check_d_z. cbn [py_get nth_error bind].
  destruct (Rltb_spec 0 z0); [reflexivity|]. destruct (Reqb_spec z1 0); [|reflexivity]. cbn [negb]. destruct (Rltb_spec z2 0); [reflexivity|].
  exfalso. apply N. unfold offsets_ok. repeat split; try assumption; lra.
Qed.
Lemma check_inv d_z : check_d_z d_z = Ok tt -> exists z0 z1 z2 rest, d_z = z0 :: z1 :: z2 :: rest /\ offsets_ok z0 z1 z2.
Proof.
  unfold check_d_z. destruct d_z as [|z0 [|z1 [|z2 rest]]]; cbn [py_get nth_error bind]; try discriminate;
    destruct (Rltb_spec 0 z0); try discriminate; destruct (Reqb_spec z1 0); try discriminate; cbn [negb]; try discriminate.
  destruct (Rltb_spec z2 0); try discriminate. intros _. exists z0, z1, z2, rest. split; [reflexivity|]. unfold offsets_ok. repeat split; try assumption; lra.
Qed.

(** The file. *)
Lemma sim_file_inj a i j : sim_file a i = sim_file a j -> i = j.
Proof.
  unfold sim_file. intros E. apply app_inv_head in E. injection E as E. unfold sim_stem in E. apply sapp_inv_tail in E. apply pad3_inj. exact E.
Qed.
Lemma sim_file_parent a j : parent (sim_file a j) = si_work_dir a ++ ["data_generated"].
Proof.
  unfold sim_file. replace (si_work_dir a ++ ["data_generated"; sim_stem j ^^ ".fits"]) with ((si_work_dir a ++ ["data_generated"]) ++ [sim_stem j ^^ ".fits"]) by (rewrite <- app_assoc; reflexivity).
  apply parent_snoc.
Qed.

Lemma run_store orc a T js s : run (sim_store orc a T js) s =
  match find (fun j => match s (sim_file a j) with None => true | Some _ => false end) js with
  | None => (Err UnboundLocalError, s)
  | Some j => match s (si_work_dir a ++ ["data_generated"]) with
              | Some Dir => (Ok (sim_fits orc a T j), upd s (sim_file a j) (File (Fits (sim_fits orc a T j))))
              | Some (File _) => (Err NotADirectoryError, s)
              | None => (Err FileNotFoundError, s)
              end
  end.
Proof.
  induction js as [|j js IH]; [reflexivity|]. cbn [sim_store find]. rewrite run_bind, run_call. cbn [exec fst snd].
  destruct (s (sim_file a j)) eqn:E; [exact IH|]. cbv zeta. rewrite run_bind. unfold writeto. rewrite run_bind, run_call. cbn [exec fst snd]. rewrite E.
  rewrite run_write_file. cbn [exec fst snd]. rewrite E, sim_file_parent. destruct (s (si_work_dir a ++ ["data_generated"])) as [[|d]|]; reflexivity.
Qed.
Lemma find_first (p : nat -> bool) js j : find p js = Some j -> exists a b, js = a ++ j :: b /\ p j = true /\ forall x, In x a -> p x = false.
Proof.
  induction js as [|x js IH]; [discriminate|]. cbn. destruct (p x) eqn:E.
  - intros H. injection H as ->. exists [], js. split; [reflexivity|]. split; [exact E|intros y []].
  - intros H. destruct (IH H) as (a & b & -> & P & Q). exists (x :: a), b. split; [reflexivity|]. split; [exact P|]. intros y [<-|Y]; [exact E|exact (Q y Y)].
Qed.
Lemma find_seq (p : nat -> bool) n j : find p (seq 0 n) = Some j -> (j < n)%nat /\ p j = true /\ forall i, (i < j)%nat -> p i = false.
Proof.
  intros H. pose proof (find_some _ _ H) as [I P]. apply in_seq in I. split; [lia|]. split; [exact P|]. intros i L.
  apply find_first in H. destruct H as (a & b & E & _ & Q). apply Q.
  assert (La : (length a = j)%nat). { pose proof (f_equal (fun l => nth (length a) l 0%nat) E) as K. cbn beta in K. rewrite app_nth2, Nat.sub_diag in K by lia. cbn [nth] in K.
    assert (length a < n)%nat. { pose proof (f_equal (@length nat) E) as L2. rewrite seq_length, app_length in L2. cbn in L2. lia. }
    rewrite seq_nth in K by assumption. lia. }
  pose proof (f_equal (fun l => nth i l 0%nat) E) as K. cbn beta in K. rewrite app_nth1, seq_nth in K by lia. cbn in K. rewrite K. apply nth_In. lia.
Qed.

Lemma run_sim orc a s : run (simulate_data_pyoof orc a) s =
  match check_d_z (si_d_z a) with
  | Err e => (Err e, s)
  | Ok _ => match sim_tables orc a with
            | Err e => (Err e, s)
            | Ok T => match s (gen_dir a) with
                      | Some _ => run (sim_store orc a T (seq 0 101)) s
                      | None => match run (makedirs (gen_dir a) false) s with
                                | (Ok _, s1) => run (sim_store orc a T (seq 0 101)) s1
                                | (Err e, s1) => (Err e, s1)
                                end
                      end
            end
  end.
Proof.
  unfold simulate_data_pyoof. rewrite run_bind, run_lift. destruct (check_d_z (si_d_z a)); [|reflexivity].
  rewrite run_bind, run_lift. destruct (sim_tables orc a) as [T|]; [|reflexivity].
  cbv zeta. rewrite run_bind, run_call. cbn [exec fst snd]. unfold gen_dir. destruct (s (si_work_dir a ++ ["data_generated"])); [reflexivity|].
  rewrite run_bind. destruct (run (makedirs (si_work_dir a ++ ["data_generated"]) false) s) as [[]]; reflexivity.
Qed.

Lemma prefix_dec q p : {is_prefix q p} + {~ is_prefix q p}.
Proof.
  destruct (path_eq_dec (firstn (length q) p) q) as [E|N].
  - left. exists (skipn (length q) p). rewrite <- E at 1. symmetry. apply firstn_skipn.
  - right. intros (t & ->). apply N. rewrite firstn_app, Nat.sub_diag, firstn_all. cbn. apply app_nil_r.
Qed.

(** Success: a new file with the first free number. *)
Lemma sim_success orc a s f s' : wf s -> run (simulate_data_pyoof orc a) s = (Ok f, s') ->
  exists T j, check_d_z (si_d_z a) = Ok tt /\ sim_tables orc a = Ok T /\ f = sim_fits orc a T j /\
    (j <= 100)%nat /\ s (sim_file a j) = None /\ (forall i, (i < j)%nat -> s (sim_file a i) <> None) /\
    s' (sim_file a j) = Some (File (Fits f)) /\
    forall q, q <> sim_file a j -> s' q = s q \/ (s q = None /\ s' q = Some Dir /\ is_prefix q (gen_dir a)).
Proof.
  intros WF. rewrite run_sim. destruct (check_d_z (si_d_z a)) as [[]|] eqn:EC; [|discriminate]. destruct (sim_tables orc a) as [T|] eqn:ET; [|discriminate].
  assert (G : forall s1, run (sim_store orc a T (seq 0 101)) s1 = (Ok f, s') ->
    exists j, f = sim_fits orc a T j /\ (j <= 100)%nat /\ s1 (sim_file a j) = None /\ (forall i, (i < j)%nat -> s1 (sim_file a i) <> None) /\ s' = upd s1 (sim_file a j) (File (Fits f))).
  { intros s1. rewrite run_store. destruct (find _ _) as [j|] eqn:Ef; [|discriminate]. fold (gen_dir a). destruct (s1 (gen_dir a)) as [[|d]|]; try discriminate.
    intros E. injection E as <- <-. apply find_seq in Ef. destruct Ef as (J & P & Q). exists j. split; [reflexivity|]. split; [lia|].
    split; [destruct (s1 (sim_file a j)); [discriminate|reflexivity]|]. split; [|reflexivity]. intros i L. specialize (Q i L). destruct (s1 (sim_file a i)); [discriminate|discriminate]. }
  destruct (s (gen_dir a)) as [nd|] eqn:ED.
  - intros R. destruct (G s R) as (j & -> & J & N & Q & ->). exists T, j. split; [reflexivity|]. split; [reflexivity|]. split; [reflexivity|]. split; [exact J|]. split; [exact N|]. split; [exact Q|]. split; [apply upd_same|]. intros q Hq. left. apply upd_other. exact Hq.
  - destruct (run (makedirs (gen_dir a) false) s) as [[u|e] s1] eqn:EM; [|discriminate]. intros R. destruct (G s1 R) as (j & -> & J & N & Q & ->).
    pose proof (only_run _ _ _ s (makedirs_only (gen_dir a) false)) as K. rewrite EM in K. cbn [snd] in K.
    assert (Fn : forall i, s (sim_file a i) = None).
    { intros i. destruct (s (sim_file a i)) eqn:E; [|reflexivity]. exfalso. destruct WF as (_ & WF).
      unfold sim_file in E. replace (si_work_dir a ++ ["data_generated"; sim_stem i ^^ ".fits"]) with (gen_dir a ++ [sim_stem i ^^ ".fits"]) in E by (unfold gen_dir; rewrite <- app_assoc; reflexivity).
      specialize (WF (gen_dir a) (sim_stem i ^^ ".fits")). rewrite E, ED in WF. assert (X : None = Some Dir) by (apply WF; discriminate). discriminate. }
    assert (Fn1 : forall i, s1 (sim_file a i) = None).
    { intros i. rewrite K; [apply Fn|tauto|right]. intros (t & X). apply (f_equal (@length string)) in X. unfold gen_dir, sim_file in X. rewrite !app_length in X. cbn in X. lia. }
    exists T, j. split; [reflexivity|]. split; [reflexivity|]. split; [reflexivity|]. split; [exact J|]. split; [apply Fn|]. split.
    { intros i L. exfalso. apply (Q i L). apply Fn1. }
    split; [apply upd_same|]. intros q Hq. rewrite upd_other by exact Hq.
    pose proof (mkdirs_way _ _ s (makedirs_only (gen_dir a) false)) as MW. apply always_run in MW.
    rewrite EM in MW. cbn [snd] in MW. destruct (prefix_dec q (gen_dir a)) as [Pq|Pq].
    + destruct (MW q) as [E|(E1 & E2 & _)]; [left; exact E|right; auto].
    + left. apply K; tauto.
Qed.

(** Totality. *)
Lemma sim_runs orc a s T : wf s -> sim_usable a s -> check_d_z (si_d_z a) = Ok tt -> sim_tables orc a = Ok T ->
  (exists j, (j <= 100)%nat /\ s (sim_file a j) = None) -> exists f s', run (simulate_data_pyoof orc a) s = (Ok f, s').
Proof.
  intros WF (U1 & U2) EC ET (j & J & N). rewrite run_sim, EC, ET.
  assert (G : forall s1, s1 (gen_dir a) = Some Dir -> s1 (sim_file a j) = None -> exists f s', run (sim_store orc a T (seq 0 101)) s1 = (Ok f, s')).
  { intros s1 D N1. rewrite run_store. destruct (find _ _) as [i|] eqn:Ef.
    - fold (gen_dir a). rewrite D. eauto.
    - exfalso. pose proof (find_none _ _ Ef j) as X. cbn beta in X. rewrite N1 in X. assert (I : In j (seq 0 101)) by (apply in_seq; lia). apply X in I. discriminate. }
  destruct U2 as [D|D]; rewrite D; [|apply G; assumption].
  unfold gen_dir in *. rewrite (run_makedirs_new _ _ _ _ U1 D). apply G; [apply upd_same|]. rewrite upd_other; [exact N|].
  intros X. apply (f_equal (@length string)) in X. unfold sim_file in X. rewrite !app_length in X. cbn in X. lia.
Qed.
Lemma sim_full orc a s T : check_d_z (si_d_z a) = Ok tt -> sim_tables orc a = Ok T -> s (gen_dir a) <> None ->
  (forall j, (j <= 100)%nat -> s (sim_file a j) <> None) -> run (simulate_data_pyoof orc a) s = (Err UnboundLocalError, s).
Proof.
  intros EC ET D Fl. rewrite run_sim, EC, ET. destruct (s (gen_dir a)) eqn:E; [|congruence]. rewrite run_store.
  destruct (find _ _) as [i|] eqn:Ef; [|reflexivity]. apply find_seq in Ef. destruct Ef as (L & P & _). exfalso. apply (Fl i); [lia|].
  destruct (s (sim_file a i)); [discriminate|reflexivity].
Qed.
Lemma sim_bad_offsets orc a z0 z1 z2 rest : si_d_z a = z0 :: z1 :: z2 :: rest -> ~ offsets_ok z0 z1 z2 -> simulate_data_pyoof orc a = Raise ValueError.
Proof. intros E N. unfold simulate_data_pyoof. rewrite E, check_bad by exact N. reflexivity. Qed.
Lemma sim_on_limit orc a z0 z1 z2 rest u F0 F1 F2 : physical a -> si_d_z a = z0 :: z1 :: z2 :: rest -> beams a z0 z1 z2 u F0 F1 F2 ->
  ~ clear_of u (sim_limit a) -> simulate_data_pyoof orc a = Raise ValueError.
Proof.
  intros Ph E B C. unfold simulate_data_pyoof. rewrite E.
  assert (X : check_d_z (z0 :: z1 :: z2 :: rest) = Ok tt \/ check_d_z (z0 :: z1 :: z2 :: rest) = Err ValueError).
  { destruct (Rle_dec z0 0); destruct (Req_EM_T z1 0); destruct (Rle_dec 0 z2); (left; apply check_ok; repeat split; assumption) || (right; apply check_bad; intros (H1 & H2 & H3); contradiction). }
  destruct X as [->| ->]; [|reflexivity]. cbn [lift bindP]. rewrite (tables_limit orc a z0 z1 z2 rest u F0 F1 F2 Ph E B C). reflexivity.
Qed.

(** Nothing that exists is touched, at no moment. *)
Lemma always_write_new p d s s0 : unaltered s0 s -> s0 p = None -> always (unaltered s0) (write_file p d) s.
Proof.
  intros U N. unfold write_file. cbn [callE bindP always]. split; [exact U|]. cbn [exec].
  assert (Up : forall x y, unaltered s0 x -> unaltered s0 (upd x p y)).
  { intros x y H q Q. rewrite upd_other; [apply H; exact Q|]. intros ->. contradiction. }
  destruct (s p) as [[|d0]|].
  - cbn. auto.
  - cbn [lift bindP call always exec]. rewrite upd_same. auto using Up.
  - destruct (s (parent p)) as [[|d0]|]; cbn [lift bindP call always exec]; try (split; [exact U|exact I]).
    rewrite upd_same. auto 10 using Up.
Qed.
Lemma always_store orc a T js s s0 : unaltered s0 s -> (forall j, In j js -> s (sim_file a j) = None -> s0 (sim_file a j) = None) ->
  always (unaltered s0) (sim_store orc a T js) s.
Proof.
  intros U H. induction js as [|j js IH]; [split; [exact U|exact I]|]. cbn [sim_store call bindP always exec]. split; [exact U|].
  destruct (s (sim_file a j)) eqn:E.
  - apply IH. intros i I. apply H. right. exact I.
  - cbn [bindP writeto call always exec]. split; [exact U|]. rewrite E. apply always_bind.
    + apply always_write_new; [exact U|]. apply H; [left; reflexivity|exact E].
    + intros x s' R. split; [|exact I]. intros q Q.
      pose proof (always_write_new (sim_file a j) (Fits (sim_fits orc a T j)) s s0 U (H j (or_introl eq_refl) E)) as AW. apply always_run in AW. rewrite R in AW. apply AW. exact Q.
Qed.
Lemma sim_unaltered orc a s : always (unaltered s) (simulate_data_pyoof orc a) s.
Proof.
  assert (R0 : unaltered s s) by (intros q _; reflexivity).
  unfold simulate_data_pyoof. destruct (check_d_z (si_d_z a)); cbn [lift bindP]; [|split; [exact R0|exact I]].
  destruct (sim_tables orc a) as [T|]; cbn [lift bindP]; [|split; [exact R0|exact I]].
  cbn [call bindP always exec]. split; [exact R0|]. destruct (s (si_work_dir a ++ ["data_generated"])) eqn:E.
  - cbn [bindP]. apply always_store; [exact R0|auto].
  - apply always_bind.
    + eapply always_impl; [|apply only_always, makedirs_only]. intros s' K q Q. apply K; [tauto|left; exact Q].
    + intros x s1 R. pose proof (only_run _ _ _ s (makedirs_only (gen_dir a) false)) as K. unfold gen_dir in K. rewrite R in K. cbn [snd] in K.
      apply always_store; [intros q Q; apply K; [tauto|left; exact Q]|]. intros j _ N. rewrite <- (K (sim_file a j)); [exact N|tauto|].
      right. intros (t & X). apply (f_equal (@length string)) in X. unfold sim_file in X. rewrite !app_length in X. cbn in X. lia.
Qed.

(** Reading the file back. *)
Lemma resolve_last cwd p dir stem : names_fits p dir stem -> exists d, resolve cwd p = d ++ [stem ^^ ".fits"].
Proof.
  intros (E & D & S & c & Cin & Cn). unfold resolve.
  assert (Cf : components (stem ^^ ".fits") = [stem ^^ ".fits"]).
  { unfold components. rewrite split_on_none_chs.
    2:{ rewrite chs_app, in_app_iff. intros [K|K]; [exact (S K)|]. cbn in K. intuition discriminate. }
    cbn [filter]. destruct stem as [|x stem]; [destruct Cin|]. cbn [String.append].
    destruct (String.eqb_spec (String x (stem ^^ ".fits")) "") as [X|_]; [discriminate|].
    destruct (String.eqb_spec (String x (stem ^^ ".fits")) ".") as [X|_]; [injection X as _ X; destruct stem; discriminate|]. reflexivity. }
  assert (Cp : exists l, components p = l ++ [stem ^^ ".fits"]).
  { rewrite E. destruct D as [->|(d & ->)]; [exists []; exact Cf|]. rewrite sapp_assoc. cbn [String.append]. exists (components d).
    change "/"%char with slash. rewrite components_app. f_equal. exact Cf. }
  destruct Cp as (l & ->). rewrite fold_left_app. cbn [fold_left]. eexists. unfold enter at 1.
  destruct (String.eqb_spec (stem ^^ ".fits") "..") as [X|_]; [|reflexivity].
  exfalso. apply (f_equal String.length) in X. rewrite slength_app in X. cbn in X. lia.
Qed.

(** A success in full. *)
Lemma sim_complete orc a s f s' : physical a -> wf s -> run (simulate_data_pyoof orc a) s = (Ok f, s') ->
  exists z0 z1 z2 rest u F0 F1 F2 t0 t1 t2 i0 k j, si_d_z a = z0 :: z1 :: z2 :: rest /\ offsets_ok z0 z1 z2 /\
    beams a z0 z1 z2 u F0 F1 F2 /\ clear_of u (sim_limit a) /\ window u (sim_limit a) i0 k /\ (0 < k)%nat /\
    (j <= 100)%nat /\ s' (sim_file a j) = Some (File (Fits f)) /\ f = sim_fits orc a [t0; t1; t2] j /\
    th_name t0 = "MINUS OOF" /\ th_name t1 = "ZERO OOF" /\ th_name t2 = "PLUS OOF" /\
    holds_map t0 (sim_columns orc (si_noise a) 0 u F0 i0 k) z0 /\ holds_map t1 (sim_columns orc (si_noise a) 1 u F1 i0 k) z1 /\
    holds_map t2 (sim_columns orc (si_noise a) 2 u F2 i0 k) z2.
Proof.
  intros Ph WF R. destruct (sim_success orc a s f s' WF R) as (T & j & EC & ET & -> & J & _ & _ & W & _).
  destruct (check_inv _ EC) as (z0 & z1 & z2 & rest & E & O).
  destruct (tables_inv orc a z0 z1 z2 rest T Ph E ET) as (u & F0 & F1 & F2 & B & C).
  destruct (tables_clear orc a z0 z1 z2 rest u F0 F1 F2 Ph E B C) as (t0 & t1 & t2 & i0 & k & ET' & Wi & K & N0 & N1 & N2 & H0 & H1 & H2).
  rewrite ET in ET'. apply Ok_inj in ET'. subst T.
  exists z0, z1, z2, rest, u, F0, F1, F2, t0, t1, t2, i0, k, j. auto 20.
Qed.

Lemma block_length {A} k (f : nat -> nat -> A) : length (block k f) = (k * k)%nat.
Proof. unfold block, rows. rewrite concat_length_grid, !seq_length. reflexivity. Qed.

Lemma round_trip orc a s f s' cwd p dir stem j : physical a -> wf s -> run (simulate_data_pyoof orc a) s = (Ok f, s') ->
  s (sim_file a j) = None -> s' (sim_file a j) <> None -> names_fits p dir stem -> resolve cwd p = sim_file a j ->
  exists z0 z1 z2 rest u F0 F1 F2 i0 k ob, si_d_z a = z0 :: z1 :: z2 :: rest /\ beams a z0 z1 z2 u F0 F1 F2 /\ window u (sim_limit a) i0 k /\
    fst (run (extract_data_pyoof cwd p) s') = Ok ob /\
    ob_name ob = sim_stem j /\ ob_object ob = HStr (sim_stem j) /\ ob_date ob = HStr (so_now orc) /\
    ob_wavel ob = si_wavel a /\ ob_freq ob * ob_wavel ob = speed_of_light /\ ob_meanel ob = 0 /\ ob_d_z ob = [z0; z1; z2] /\
    let c i F := sim_columns orc (si_noise a) i u F i0 k in
    ob_beam ob = [fst (fst (c 0%nat F0)); fst (fst (c 1%nat F1)); fst (fst (c 2%nat F2))] /\
    ob_u ob = [snd (fst (c 0%nat F0)); snd (fst (c 1%nat F1)); snd (fst (c 2%nat F2))] /\
    ob_v ob = [snd (c 0%nat F0); snd (c 1%nat F1); snd (c 2%nat F2)].
Proof.
  intros Ph WF R N Y NF RS.
  destruct (sim_complete orc a s f s' Ph WF R) as (z0 & z1 & z2 & rest & u & F0 & F1 & F2 & t0 & t1 & t2 & i0 & k & j' & E & O & B & C & Wi & K & J & W & Ef & N0 & N1 & N2 & H0 & H1 & H2).
  assert (j' = j).
  { destruct (sim_success orc a s f s' WF R) as (T & j2 & _ & _ & _ & _ & M & _ & W2 & Fr).
    assert (X : forall i, s (sim_file a i) = None -> s' (sim_file a i) <> None -> i = j2).
    { intros i A1 A2. destruct (Nat.eq_dec i j2) as [|D]; [assumption|]. exfalso.
      destruct (Fr (sim_file a i)) as [Z|(_ & Z & (t & P))]; [intros Q; apply D; exact (sim_file_inj a i j2 Q)|congruence|].
      apply (f_equal (@length string)) in P. unfold gen_dir, sim_file in P. rewrite !app_length in P. cbn in P. lia. }
    rewrite (X j N Y). destruct (Nat.eq_dec j' j2) as [|D]; [assumption|]. exfalso.
    destruct (Fr (sim_file a j')) as [Z|(_ & Z & _)]; [intros Q; apply D; exact (sim_file_inj a j' j2 Q)| |congruence].
    assert (Sj : s (sim_file a j') = None \/ s (sim_file a j') <> None) by (destruct (s (sim_file a j')); [right; discriminate|left; reflexivity]).
    destruct Sj as [Sj|Sj]; [congruence|].
    pose proof (sim_unaltered orc a s) as U. apply always_run in U. rewrite R in U. cbn [snd] in U.
    destruct (sim_success orc a s f s' WF R) as (T3 & j3 & _ & _ & E3 & _ & M3 & _ & W3 & _).
    assert (j3 = j2) by (apply X; [exact M3|congruence]). subst j3.
    rewrite E3 in Ef. unfold sim_fits in Ef. injection Ef as Eo _. apply pad3_inj in Eo. congruence. }
  subst j'.
  assert (Ej : stem = sim_stem j).
  { destruct (resolve_last cwd p dir stem NF) as (d & Rl). rewrite RS in Rl. unfold sim_file in Rl.
    replace (si_work_dir a ++ ["data_generated"; sim_stem j ^^ ".fits"]) with ((si_work_dir a ++ ["data_generated"]) ++ [sim_stem j ^^ ".fits"]) in Rl by (rewrite <- app_assoc; reflexivity).
    apply app_inj_tail in Rl. destruct Rl as [_ Rl]. apply sapp_inv_tail in Rl. congruence. }
  destruct (split_names p dir stem NF) as [Sn _].
  set (c i F := sim_columns orc (si_noise a) i u F i0 k).
  set (ob := {| ob_name := drop_last5 (snd (path_split p)); ob_pthto := fst (path_split p); ob_object := HStr (sim_stem j); ob_date := HStr (so_now orc);
     ob_freq := speed_of_light / si_wavel a; ob_wavel := si_wavel a; ob_d_z := [z0; z1; z2]; ob_meanel := 0;
     ob_beam := [fst (fst (c 0%nat F0)); fst (fst (c 1%nat F1)); fst (fst (c 2%nat F2))];
     ob_u := [snd (fst (c 0%nat F0)); snd (fst (c 1%nat F1)); snd (fst (c 2%nat F2))];
     ob_v := [snd (c 0%nat F0); snd (c 1%nat F1); snd (c 2%nat F2)] |}).
  exists z0, z1, z2, rest, u, F0, F1, F2, i0, k, ob. split; [exact E|]. split; [exact B|]. split; [exact Wi|]. split.
  - apply (pyoof_iff cwd p dir stem s' ob NF). split; [split; reflexivity|]. exists f, t0, t1, t2, []. rewrite RS. split; [exact W|].
    rewrite Ef. unfold general, ob. cbn [ff_primary sim_fits ob_freq ob_meanel ob_object ob_date ob_wavel].
    split; [|split; [|split; [reflexivity|]]].
    + repeat split; repeat first [apply entry_here | apply entry_there; [discriminate|]].
    + repeat first [apply entry_here | apply entry_there; [discriminate|]].
    + exists (fst (fst (c 0%nat F0))), (fst (fst (c 1%nat F1))), (fst (fst (c 2%nat F2))), (snd (fst (c 0%nat F0))), (snd (fst (c 1%nat F1))), (snd (fst (c 2%nat F2))),
        (snd (c 0%nat F0)), (snd (c 1%nat F1)), (snd (c 2%nat F2)), z0, z1, z2.
      split; [exact H0|]. split; [exact H1|]. split; [exact H2|].
      unfold c, sim_columns. cbn [fst snd ob_beam ob_u ob_v ob_d_z]. rewrite !map_length, !block_length. auto 12.
  - unfold ob. cbn [ob_name ob_object ob_date ob_wavel ob_freq ob_meanel ob_d_z ob_beam ob_u ob_v]. rewrite Sn, Ej. destruct Ph as (Wp & _). repeat (split; [reflexivity|]). split; [field; lra|]. auto 10.
Qed.
