(** scripts/pyoof_simulate_data.py. *)
From Coq Require Import String Ascii List Lia Lra FunctionalExtensionality.
From Verif Require Import PyBase PyLib Num MZernike MMath SMath MAperture MTel MRad MFs MAct MAux MOut MSim MTab MPlot MCore MScript SAux SSim SFit SOut SCore SAct SScript PStr PFs PFit PNorm PRad PResid PAux PSim PSim2 PSim3 PEnd PPlot PPlot3 PDemo PDemo2 PScript PWave PIllum.
From Coquelicot Require Import Complex.
Import ListNotations.
Open Scope R_scope.
Open Scope string_scope.
Open Scope list_scope.
Open Scope prog_scope.

Definition shown_path : string := "data_generated/test000.fits".
Lemma shown_resolve a : resolve (si_work_dir a) shown_path = sim_file a 0.
Proof. change (resolve (si_work_dir a) shown_path) with ((si_work_dir a ++ ["data_generated"]) ++ ["test000.fits"]). rewrite <- app_assoc. reflexivity. Qed.
Lemma shown_names : names_fits shown_path "data_generated/" "test000".
Proof.
  split; [reflexivity|]. split; [right; exists "data_generated"; reflexivity|]. split; [cbn; intuition discriminate|]. exists "t"%char. split; [left; reflexivity|discriminate].
Qed.
Lemma extract_pyoof_state cwd p s : snd (run (extract_data_pyoof cwd p) s) = s.
Proof. apply functional_extensionality. intros q. apply extract_unchanged. Qed.
Lemma extract_pyoof_same cwd p s1 s2 : s1 (resolve cwd p) = s2 (resolve cwd p) -> fst (run (extract_data_pyoof cwd p) s1) = fst (run (extract_data_pyoof cwd p) s2).
Proof.
  intros E. unfold extract_data_pyoof. destruct (negb _); [reflexivity|]. rewrite !run_bind, !run_open, E.
  destruct (s2 (resolve cwd p)) as [[|[]]|]; try reflexivity. cbv zeta. destruct (negb _); [reflexivity|]. repeat (apply run_pure_bind; intros). reflexivity.
Qed.

Lemma sim_script_inv orc gd fmt a s ob fig s' : run (simulate_script orc gd fmt a) s = (Ok (ob, fig), s') ->
  exists f u v, run (simulate_data_pyoof orc a) s = (Ok f, s') /\ fst (run (extract_data_pyoof (si_work_dir a) shown_path) s') = Ok ob /\
    ob_u ob = map (map Fin) u /\ ob_v ob = map (map Fin) v /\
    plot_beam_data gd fmt u v (ob_beam ob) (ob_d_z ob) 256 degree_unit "test000" false = Ok fig.
Proof.
  intros H. unfold simulate_script in H. apply run_bind_inv in H. destruct H as (f & s1 & H1 & H). apply run_bind_inv in H. destruct H as (o & s2 & H2 & H).
  assert (s2 = s1) as -> by (rewrite <- (extract_pyoof_state (si_work_dir a) shown_path s1); unfold shown_path; rewrite H2; reflexivity).
  apply run_lift_inv in H. destruct H as (u & Eu & H). apply run_lift_inv in H. destruct H as (v & Ev & H). apply run_lift_inv in H. destruct H as (fg & Ef & H).
  cbn in H. inversion H; subst o fg s1. exists f, u, v. split; [exact H1|]. split; [unfold shown_path; rewrite H2; reflexivity|].
  split; [symmetry; apply real_of_inv2, Eu|]. split; [symmetry; apply real_of_inv2, Ev|]. exact Ef.
Qed.

Lemma sim_script_fresh orc gd fmt a s ob fig s' : physical a -> wf s -> s (sim_file a 0) = None -> run (simulate_script orc gd fmt a) s = (Ok (ob, fig), s') ->
  exists z0 z1 z2 rest u F0 F1 F2 i0 k x y, si_d_z a = z0 :: z1 :: z2 :: rest /\ beams a z0 z1 z2 u F0 F1 F2 /\ window u (sim_limit a) i0 k /\
    ob_name ob = "test000" /\ ob_wavel ob = si_wavel a /\ ob_d_z ob = [z0; z1; z2] /\
    let c i F := sim_columns orc (si_noise a) i u F i0 k in
    ob_beam ob = [fst (fst (c 0%nat F0)); fst (fst (c 1%nat F1)); fst (fst (c 2%nat F2))] /\
    map (map Fin) x = [snd (fst (c 0%nat F0)); snd (fst (c 1%nat F1)); snd (fst (c 2%nat F2))] /\
    map (map Fin) y = [snd (c 0%nat F0); snd (c 1%nat F1); snd (c 2%nat F2)] /\
    plot_beam_data gd fmt x y (ob_beam ob) [z0; z1; z2] 256 degree_unit "test000" false = Ok fig.
Proof.
  intros Ph WF N0 H. destruct (sim_script_inv orc gd fmt a s ob fig s' H) as (f & x & y & H1 & H2 & Ex & Ey & Ef).
  destruct (sim_success orc a s f s' WF H1) as (T & j & _ & _ & _ & Hj & Hn & Hlt & Hs & _).
  assert (j = 0%nat) as -> by (destruct j; [reflexivity|]; exfalso; apply (Hlt 0%nat); [lia|exact N0]).
  destruct (round_trip orc a s f s' (si_work_dir a) shown_path _ _ 0 Ph WF H1 N0 ltac:(rewrite Hs; discriminate) shown_names (shown_resolve a))
    as (z0 & z1 & z2 & rest & u & F0 & F1 & F2 & i0 & k & ob' & Ez & HB & Win & Eob & En & _ & _ & Ew & _ & _ & Edz & Hc).
  rewrite H2 in Eob. apply Ok_inj in Eob. subst ob'. cbv zeta in Hc. destruct Hc as (Hb & Hu & Hv).
  exists z0, z1, z2, rest, u, F0, F1, F2, i0, k, x, y. rewrite Edz in Ef. rewrite <- Ex, <- Ey. auto 15.
Qed.
Lemma sim_script_stale orc gd fmt a s ob fig s' : s (sim_file a 0) <> None -> run (simulate_script orc gd fmt a) s = (Ok (ob, fig), s') ->
  fst (run (extract_data_pyoof (si_work_dir a) shown_path) s) = Ok ob.
Proof.
  intros N0 H. destruct (sim_script_inv orc gd fmt a s ob fig s' H) as (f & x & y & H1 & H2 & _).
  rewrite <- H2. apply extract_pyoof_same. rewrite shown_resolve.
  pose proof (always_run _ _ _ (sim_unaltered orc a s)) as U. rewrite H1 in U. symmetry. apply U, N0.
Qed.

(** It completes: the figure needs two different rows in the window. *)
Lemma window_two a z u v F i0 k : physical a -> beam_of a z = Ok (u, v, F) -> window u (sim_limit a) i0 k -> 1 <= 9.76 * si_box_factor a ->
  exists r, (r + 1 < k)%nat /\ nth (i0 + r) u 0 = - grid_step a /\ nth (i0 + (r + 1)) u 0 = 0.
Proof.
  intros HP HB (HL & HW) Hbf. pose proof HP as (Hw & Hp & Hb). assert (HN : (2 <= si_resolution a)%nat) by (apply rad_inv in HB as [G _]; exact G).
  destruct (axes_api _ _ _ _ _ _ _ _ _ _ _ Hw Hp Hb HB) as (_ & LU & _ & _ & LN & Hax). cbv zeta in Hax. destruct Hax as (St & Nth & H0 & _).
  pose proof (proj1 (HW (si_resolution a / 2)%nat ltac:(lia))) as A. rewrite H0, Rabs_R0 in A. specialize (A (limit_pos a HP)).
  assert (H1 : (1 <= si_resolution a / 2)%nat) by (apply Nat.div_le_lower_bound; lia).
  pose proof (proj1 (HW (si_resolution a / 2 - 1)%nat ltac:(lia))) as B. rewrite Nth in B by lia. rewrite minus_INR in B by lia. cbn [INR] in B.
  set (N := si_resolution a) in *. assert (N1 : 1 < INR N) by (apply (lt_INR 1); lia).
  assert (B' : (i0 <= N / 2 - 1 < i0 + k)%nat).
  { apply B. replace ((INR (N / 2) - 1 - INR (N / 2)) * (si_wavel a * (INR N - 1) / (2 * (si_box_factor a * tel_pr (si_tel a)) * INR N))) with (- (si_wavel a * (INR N - 1) / (2 * (si_box_factor a * tel_pr (si_tel a)) * INR N))) by ring.
    rewrite Rabs_Ropp, Rabs_right by lra. rewrite limit_eq. unfold half_width.
    assert (P1 : 0 < si_box_factor a * tel_pr (si_tel a)) by (apply Rmult_lt_0_compat; assumption).
    apply (Rmult_lt_reg_r (2 * (si_box_factor a * tel_pr (si_tel a)) * INR N)); [apply Rmult_lt_0_compat; lra|].
    replace (si_wavel a * (INR N - 1) / (2 * (si_box_factor a * tel_pr (si_tel a)) * INR N) * (2 * (si_box_factor a * tel_pr (si_tel a)) * INR N)) with (si_wavel a * (INR N - 1)) by (field; repeat split; lra).
    replace (9.76 * si_wavel a / (2 * tel_pr (si_tel a)) * (2 * (si_box_factor a * tel_pr (si_tel a)) * INR N)) with (si_wavel a * (9.76 * si_box_factor a * INR N)) by (field; lra).
    apply Rmult_lt_compat_l; [exact Hw|]. nra. }
  exists (N / 2 - 1 - i0)%nat. split; [lia|]. split.
  - replace (i0 + (N / 2 - 1 - i0))%nat with (N / 2 - 1)%nat by lia. rewrite Nth by lia. rewrite minus_INR by lia. cbn [INR]. unfold grid_step. fold N. ring.
  - replace (i0 + (N / 2 - 1 - i0 + 1))%nat with (N / 2)%nat by lia. exact H0.
Qed.
Lemma block_nonempty {A} k (g : nat -> nat -> A) : (0 < k)%nat -> block k g <> [].
Proof. intros Hk E. apply (f_equal (@length A)) in E. rewrite block_length in E. cbn in E. nia. Qed.

Lemma sim_script_completes orc gd fmt a s z0 z1 z2 rest W Ea : (forall u v b x y, rect (length y) (length x) (gd u v b x y)) ->
  physical a -> (2 <= si_resolution a)%nat -> 1 <= 9.76 * si_box_factor a -> wavefront (si_K a) = Ok W -> si_illum a (si_I a) (tel_pr (si_tel a)) = Ok Ea ->
  si_d_z a = z0 :: z1 :: z2 :: rest -> offsets_ok z0 z1 z2 ->
  (forall i, (i < si_resolution a)%nat -> Rabs (INR i - INR (si_resolution a / 2)) * (INR (si_resolution a) - 1) <> 9.76 * si_box_factor a * INR (si_resolution a)) ->
  (forall x, Rabs x < half_width a -> exists y, so_f32 orc x = Fin y) -> so_f32 orc (- grid_step a) <> so_f32 orc 0 ->
  wf s -> sim_usable a s -> s (sim_file a 0) = None ->
  exists ob fig s', run (simulate_script orc gd fmt a) s = (Ok (ob, fig), s').
Proof.
  intros Hgd Ph HN Hbf HW HE Ez O C Hf Hinj WF U N0.
  destruct (sim_total orc a s z0 z1 z2 rest W Ea Ph HN HW HE Ez O C WF U ltac:(exists 0%nat; split; [lia|exact N0])) as (f & s' & H1).
  destruct (sim_success orc a s f s' WF H1) as (T & j & _ & _ & _ & Hj & Hn & Hlt & Hs & _).
  assert (j = 0%nat) as -> by (destruct j; [reflexivity|]; exfalso; apply (Hlt 0%nat); [lia|exact N0]).
  destruct (round_trip orc a s f s' (si_work_dir a) shown_path _ _ 0 Ph WF H1 N0 ltac:(rewrite Hs; discriminate) shown_names (shown_resolve a))
    as (y0 & y1 & y2 & rest' & u & F0 & F1 & F2 & i0 & k & ob & Ez' & HB & Win & Eob & En & _ & _ & Ew & _ & _ & Edz & Hc).
  cbv zeta in Hc. destruct Hc as (Hb & Hu & Hv). unfold sim_columns in Hb, Hu, Hv. cbn [fst snd] in Hb, Hu, Hv.
  pose proof HB as (v0 & v1 & v2 & B0 & _). destruct (window_two a y0 u v0 F0 i0 k Ph B0 Win Hbf) as (r0 & Hk & Er0 & Er1).
  assert (G : forall l, (forall x, In x l -> Rabs x < half_width a) -> exists m, map (so_f32 orc) l = map Fin m).
  { induction l as [|x t IH]; intros Hl; [exists []; reflexivity|]. destruct IH as [m IH]; [intros y Hy; apply Hl; right; exact Hy|].
    destruct (Hf x (Hl x (or_introl eq_refl))) as [y Ey]. exists (y :: m). cbn. rewrite Ey, IH. reflexivity. }
  assert (In_w : forall r, (r < k)%nat -> Rabs (nth (i0 + r) u 0) < half_width a).
  { intros r Hr. rewrite <- limit_eq. apply (proj2 Win); [pose proof (proj1 Win)|]; lia. }
  destruct (G (block k (fun _ c => nth (i0 + c) u 0))) as [X EX]; [intros x Hx; apply block_in in Hx; destruct Hx as (r & c & Hr & Hc & ->); apply In_w, Hc|].
  destruct (G (block k (fun r _ => nth (i0 + r) u 0))) as [Y EY]; [intros x Hx; apply block_in in Hx; destruct Hx as (r & c & Hr & Hc & ->); apply In_w, Hr|].
  rewrite !EX in Hu. rewrite !EY in Hv.
  assert (Hx : run (extract_data_pyoof (si_work_dir a) shown_path) s' = (Ok ob, s')) by (rewrite (surjective_pairing (run _ _)), extract_pyoof_state; rewrite Eob; reflexivity).
  assert (NX : X <> []) by (intros ->; apply (f_equal (@length num)) in EX; rewrite map_length, block_length in EX; cbn in EX; nia).
  assert (NY : Y <> []) by (intros ->; apply (f_equal (@length num)) in EY; rewrite map_length, block_length in EY; cbn in EY; nia).
  assert (NB : forall (g : nat -> nat -> R), map (so_f32 orc) (block k g) <> []).
  { intros g E. apply (f_equal (@length num)) in E. rewrite map_length, block_length in E. cbn in E. nia. }
  assert (V2 : exists p q, In p Y /\ In q Y /\ p <> q).
  { assert (M : forall r, (r < k)%nat -> exists p, In p Y /\ so_f32 orc (nth (i0 + r) u 0) = Fin p).
    { intros r Hr. assert (I1 : In (so_f32 orc (nth (i0 + r) u 0)) (map Fin Y)).
      { rewrite <- EY. apply in_map. apply block_in. exists r, 0%nat. repeat split; lia. }
      apply in_map_iff in I1. destruct I1 as (p & E & Ip). exists p. auto. }
    destruct (M r0 ltac:(lia)) as (p & Ip & E0). destruct (M (r0 + 1)%nat ltac:(lia)) as (q & Iq & E1). exists p, q. split; [exact Ip|]. split; [exact Iq|].
    intros <-. apply Hinj. rewrite Er0 in E0. rewrite Er1 in E1. congruence. }
  assert (BB : exists b0 b1 b2, ob_beam ob = [b0; b1; b2] /\ b0 <> [] /\ b1 <> [] /\ b2 <> []).
  { rewrite Hb. eexists _, _, _. split; [reflexivity|]. split; [|split]; apply NB. }
  destruct BB as (b0 & b1 & b2 & Hb' & NB0 & NB1 & NB2).
  destruct (plot_beam_data_ok gd fmt 256 degree_unit Hgd X X X [] Y Y Y [] b0 b1 b2 y0 y1 y2 [] "test000" false ltac:(lia) NX NX NX NY NY NY NB0 NB1 NB2 V2) as [fig Hfig].
  exists ob, fig, s'. unfold simulate_script. fold shown_path. rewrite run_bind, H1, run_bind, Hx, run_bind, run_lift, Hu.
  change [map Fin X; map Fin X; map Fin X] with (map (map Fin) [X; X; X]). rewrite real_of_ok2, run_bind, run_lift, Hv.
  change [map Fin Y; map Fin Y; map Fin Y] with (map (map Fin) [Y; Y; Y]). rewrite real_of_ok2, run_bind, run_lift, Hb', Edz.
  fold degree_unit. rewrite Hfig. reflexivity.
Qed.

(** The second run shows the first run's data. *)
Lemma map_fin_inj l m : map Fin l = map Fin m -> l = m.
Proof. revert m. induction l as [|x t IH]; intros [|y m] H; try discriminate; [reflexivity|]. cbn in H. injection H as -> H. f_equal. apply IH, H. Qed.
Lemma map_fin_inj2 l m : map (map Fin) l = map (map Fin) m -> l = m.
Proof. revert m. induction l as [|x t IH]; intros [|y m] H; try discriminate; [reflexivity|]. cbn in H. injection H as H1 H. f_equal; [apply map_fin_inj, H1|apply IH, H]. Qed.
Lemma extract_pyoof_exists cwd p s ob : fst (run (extract_data_pyoof cwd p) s) = Ok ob -> s (resolve cwd p) <> None.
Proof.
  intros H E. unfold extract_data_pyoof in H. destruct (negb _); [discriminate H|]. rewrite run_bind, run_open, E in H. discriminate H.
Qed.
Lemma sim_script_again orc orc' gd fmt a b s ob fig s1 ob' fig' s2 : si_work_dir b = si_work_dir a ->
  run (simulate_script orc gd fmt a) s = (Ok (ob, fig), s1) -> run (simulate_script orc' gd fmt b) s1 = (Ok (ob', fig'), s2) -> ob' = ob /\ fig' = fig.
Proof.
  intros Ew H H'. destruct (sim_script_inv orc gd fmt a s ob fig s1 H) as (f & x & y & _ & H2 & Ex & Ey & Ef).
  pose proof (extract_pyoof_exists _ _ _ _ H2) as N0. rewrite shown_resolve in N0.
  assert (N1 : s1 (sim_file b 0) <> None) by (unfold sim_file in *; rewrite Ew; exact N0).
  pose proof (sim_script_stale orc' gd fmt b s1 ob' fig' s2 N1 H') as H3. rewrite Ew, H2 in H3. apply Ok_inj in H3. subst ob'.
  split; [reflexivity|]. destruct (sim_script_inv orc' gd fmt b s1 ob fig' s2 H') as (f' & x' & y' & _ & _ & Ex' & Ey' & Ef').
  rewrite Ex in Ex'. apply map_fin_inj2 in Ex'. rewrite Ey in Ey'. apply map_fin_inj2 in Ey'. subst x' y'. rewrite Ef in Ef'. apply Ok_inj in Ef'. symmetry. exact Ef'.
Qed.
Lemma sim_script_repeat orc orc' gd fmt a b s ob fig s1 f s2 : si_work_dir b = si_work_dir a ->
  run (simulate_script orc gd fmt a) s = (Ok (ob, fig), s1) -> run (simulate_data_pyoof orc' b) s1 = (Ok f, s2) -> run (simulate_script orc' gd fmt b) s1 = (Ok (ob, fig), s2).
Proof.
  intros Ew H H'. destruct (sim_script_inv orc gd fmt a s ob fig s1 H) as (f0 & x & y & _ & H2 & Ex & Ey & Ef).
  pose proof (extract_pyoof_exists _ _ _ _ H2) as N0. rewrite shown_resolve in N0.
  assert (N1 : s1 (sim_file b 0) <> None) by (unfold sim_file in *; rewrite Ew; exact N0).
  assert (E3 : fst (run (extract_data_pyoof (si_work_dir b) shown_path) s2) = Ok ob).
  { rewrite Ew, <- H2. apply extract_pyoof_same. rewrite <- Ew, shown_resolve.
    pose proof (always_run _ _ _ (sim_unaltered orc' b s1)) as U. rewrite H' in U. apply U, N1. }
  unfold simulate_script. fold shown_path. rewrite run_bind, H', run_bind, (surjective_pairing (run (extract_data_pyoof _ _) _)), extract_pyoof_state, E3.
  rewrite run_bind, run_lift, Ex, real_of_ok2, run_bind, run_lift, Ey, real_of_ok2, run_bind, run_lift. fold degree_unit. rewrite Ef. reflexivity.
Qed.

(** The script as it stands, in a fresh directory. *)
Definition fresh_fs : fs := fun q => if path_eq_dec q [] then Some Dir else None.
Lemma fresh_tree : file_tree fresh_fs.
Proof. split; [reflexivity|]. intros p c H. exfalso. apply H. unfold fresh_fs. destruct (path_eq_dec _ _) as [E|]; [destruct p; discriminate E|reflexivity]. Qed.
Lemma call_physical cwd : physical (sim_call cwd).
Proof. unfold physical. cbn. repeat split; lra. Qed.
Lemma call_wave cwd : exists W Ea, wavefront (si_K (sim_call cwd)) = Ok W /\ si_illum (sim_call cwd) (si_I (sim_call cwd)) (tel_pr (si_tel (sim_call cwd))) = Ok Ea.
Proof.
  destruct (wavefront_series (si_K (sim_call cwd)) 5 eq_refl) as (W & HW & _). destruct (proj1 (par_arity [1; - (145 / 10); 2; 0; 0] 50) eq_refl) as [Ea EI].
  exists W, Ea. split; assumption.
Qed.
Lemma call_clear cwd i : (i < si_resolution (sim_call cwd))%nat ->
  Rabs (INR i - INR (si_resolution (sim_call cwd) / 2)) * (INR (si_resolution (sim_call cwd)) - 1) <> 9.76 * si_box_factor (sim_call cwd) * INR (si_resolution (sim_call cwd)).
Proof. intros I. cbn [si_box_factor sim_call]. replace 5 with (INR 5) by (cbn; lra). apply (power2_arith 8 5 i); [lia|exact I]. Qed.
Lemma call_completes orc gd fmt cwd s : (forall u v b x y, rect (length y) (length x) (gd u v b x y)) ->
  (forall x, Rabs x < half_width (sim_call cwd) -> exists y, so_f32 orc x = Fin y) -> so_f32 orc (- grid_step (sim_call cwd)) <> so_f32 orc 0 ->
  wf s -> sim_usable (sim_call cwd) s -> s (sim_file (sim_call cwd) 0) = None ->
  exists ob fig s', run (simulate_script orc gd fmt (sim_call cwd)) s = (Ok (ob, fig), s').
Proof.
  intros Hgd Hf Hi WF U N0. destruct (call_wave cwd) as (W & Ea & HW & HE).
  apply (sim_script_completes orc gd fmt (sim_call cwd) s (- (22 / 1000)) 0 (22 / 1000) [] W Ea Hgd (call_physical cwd)); auto.
  - cbn [si_resolution sim_call]. apply Nat.leb_le. reflexivity.
  - cbn [si_box_factor sim_call]. lra.
  - repeat split; lra.
  - apply call_clear.
Qed.
Lemma fresh_step : - grid_step (sim_call []) = 0 -> False.
Proof.
  intros E. unfold grid_step in E. cbn [si_wavel si_resolution si_box_factor si_tel sim_call tel_pr su_tel effelsberg] in E.
  assert (H : 2 <= INR 256) by (apply (le_INR 2); apply Nat.leb_le; reflexivity).
  assert (P : 0 < 93685143125 / 10000000000000 * (INR 256 - 1) / (2 * (5 * 50) * INR 256)) by (apply Rdiv_lt_0_compat; [apply Rmult_lt_0_compat; lra|lra]). lra.
Qed.
Definition other_call (cwd : path) : sim_args := {|
  si_I := si_I (sim_call cwd); si_K := si_K (sim_call cwd); si_wavel := 1; si_d_z := si_d_z (sim_call cwd); si_illum := si_illum (sim_call cwd);
  si_tel := si_tel (sim_call cwd); si_noise := 0; si_resolution := 256; si_box_factor := 5; si_work_dir := cwd |}.
Lemma sim_script_file orc gd fmt a s ob fig s' : wf s -> s (sim_file a 0) = None -> run (simulate_script orc gd fmt a) s = (Ok (ob, fig), s') ->
  wf s' /\ s' (sim_file a 0) <> None /\ forall j, (0 < j <= 100)%nat -> s (sim_file a j) = None -> s' (sim_file a j) = None.
Proof.
  intros WF N0 H. destruct (sim_script_inv orc gd fmt a s ob fig s' H) as (f & x & y & H1 & _).
  split; [replace s' with (snd (run (simulate_data_pyoof orc a) s)) by (rewrite H1; reflexivity); apply run_wf, WF|].
  destruct (sim_success orc a s f s' WF H1) as (T & j & _ & _ & _ & Hj & Hn & Hlt & Hs & Ho).
  assert (j = 0%nat) as -> by (destruct j; [reflexivity|]; exfalso; apply (Hlt 0%nat); [lia|exact N0]).
  split; [rewrite Hs; discriminate|]. intros j Hj' Nj. destruct (Ho (sim_file a j)) as [E|(_ & _ & P)].
  - intros E. unfold sim_file in E. apply app_inv_head in E. injection E as E. change "000.fits" with (pad3 0 ^^ ".fits") in E. apply sapp_inv_tail, pad3_inj in E. lia.
  - rewrite E. exact Nj.
  - exfalso. apply is_prefix_length in P. unfold sim_file, gen_dir in P. rewrite !app_length in P. cbn in P. lia.
Qed.
Lemma twice_demo : exists a b s ob fig s1 s2, run (simulate_script demo_outside flat_griddata (fun _ => "0") a) s = (Ok (ob, fig), s1) /\
  run (simulate_script demo_outside flat_griddata (fun _ => "0") b) s1 = (Ok (ob, fig), s2) /\ si_work_dir b = si_work_dir a /\ si_wavel b <> si_wavel a /\ ob_wavel ob = si_wavel a.
Proof.
  exists (sim_call []), (other_call []), fresh_fs.
  destruct (call_completes demo_outside flat_griddata (fun _ => "0") [] fresh_fs flat_shape) as (ob & fig & s1 & H).
  - intros x _. exists x. reflexivity.
  - intros E. assert (X : - grid_step (sim_call []) = 0) by (inversion E; reflexivity). apply fresh_step in X. exact X.
  - exact fresh_tree.
  - split; [reflexivity|left; reflexivity].
  - reflexivity.
  - destruct (sim_script_file demo_outside flat_griddata (fun _ => "0") (sim_call []) fresh_fs ob fig s1 fresh_tree eq_refl H) as (W1 & N1 & F1).
    assert (D : s1 (gen_dir (sim_call [])) = Some Dir) by (apply (proj2 W1 ["data_generated"] "test000.fits"); exact N1).
    destruct (call_wave []) as (W & Ea & HW & HE).
    destruct (sim_total demo_outside (other_call []) s1 (- (22 / 1000)) 0 (22 / 1000) [] W Ea) as (f & s2 & H2).
    + unfold physical. cbn. repeat split; lra.
    + cbn [si_resolution other_call]. apply Nat.leb_le. reflexivity.
    + exact HW.
    + exact HE.
    + reflexivity.
    + repeat split; lra.
    + exact (call_clear []).
    + exact W1.
    + split; [exact (proj1 W1)|right; exact D].
    + exists 1%nat. split; [lia|]. apply F1; [lia|reflexivity].
    + exists ob, fig, s1, s2. split; [exact H|]. split.
      * exact (sim_script_repeat demo_outside demo_outside flat_griddata (fun _ => "0") (sim_call []) (other_call []) fresh_fs ob fig s1 f s2 eq_refl H H2).
      * split; [reflexivity|]. split; [cbn; lra|].
        destruct (sim_script_fresh demo_outside flat_griddata (fun _ => "0") (sim_call []) fresh_fs ob fig s1 (call_physical []) fresh_tree eq_refl H) as (z0 & z1 & z2 & rest & u & F0 & F1' & F2 & i0 & k & x & y & _ & _ & _ & _ & Ew & _). exact Ew.
Qed.
