(** The scripts with the settings they are written with. *)
From Coq Require Import String Ascii List Lia Lra Reals.
From Verif Require Import PyBase PyLib Num MZernike MMath MAperture MTel MRad MCore MFs MOut MAct MAux MSim SAux SSim SOut SFit MTab MPlot MScript STel SScript SSetup PTel PFs PStr PFit PFit2 PFit4 PFit3 PScript PChain PChain PSim PSim2 PSim3 PEnd PSimScript.
Import ListNotations.
Open Scope R_scope.
Open Scope string_scope.
Open Scope list_scope.

Lemma corner_unique t C C' : 0 < t -> 0 < C -> 0 < C' -> C ^ 2 + (1 + C * t) ^ 2 = C' ^ 2 + (1 + C' * t) ^ 2 -> C = C'.
Proof.
  intros T H H' E. assert (F : (C - C') * ((C + C') + t * (2 + C * t + C' * t)) = 0) by (ring_simplify; ring_simplify in E; lra).
  apply Rmult_integral in F as [F|F]; [lra|]. exfalso.
  assert (0 < t * (2 + C * t + C' * t)) by (apply Rmult_lt_0_compat; [exact T|]; pose proof (Rmult_lt_0_compat _ _ H T); pose proof (Rmult_lt_0_compat _ _ H' T); lra). lra.
Qed.
Lemma effelsberg_dish deg name : 0 < deg < 90 -> dish (su_tel (effelsberg deg name)) (shadowed deg).
Proof.
  intros Hd. pose proof PI_RGT_0 as HP. assert (E : deg2rad deg = deg * PI / 180) by (unfold deg2rad; field).
  assert (R0 : 0 < deg * PI / 180 < PI / 2).
  { split; [apply Rmult_lt_0_compat; [apply Rmult_lt_0_compat; lra|lra]|]. pose proof (Rmult_lt_compat_r PI deg 90 HP ltac:(lra)). lra. }
  unfold dish, effelsberg. cbn [su_tel tel_pr block_dist opd_func]. rewrite E. split; [reflexivity|]. split; [intros; apply block_effelsberg_01|].
  split; [|intros; apply opd_effelsberg_manual].
  destruct (block_effelsberg_exact _ R0) as (C & D & C0 & DE & CD & H). intros x y. rewrite H. split.
  - intros (A & L & S). exists C, D. auto 10.
  - intros (C' & D' & C0' & DE' & CD' & A & L & S). assert (T : 0 < tan (deg * PI / 180)) by (apply tan_gt_0; lra).
    assert (C = C') as <- by (apply (corner_unique _ _ _ T C0 C0'); rewrite <- DE, <- DE'; lra). rewrite DE. rewrite DE' in S. auto.
Qed.
Lemma effelsberg_flat name : dish (su_tel (effelsberg 0 name)) (fun x y => annulus 50 (13 / 4) x y /\ ~ legs 1 (93 / 4) x y).
Proof.
  unfold dish, effelsberg. cbn [su_tel tel_pr block_dist opd_func]. split; [reflexivity|]. split; [intros; apply block_effelsberg_01|].
  split; [|intros; apply opd_effelsberg_manual]. intros x y. rewrite block_no_shade by (unfold deg2rad; rewrite Rmult_0_l; apply sin_0).
  rewrite (proj2 (block_manual_iff 50 (13 / 4) 1 20 x y)). replace (13 / 4 + 20) with (93 / 4) by lra. tauto.
Qed.
Lemma effelsberg_round sr name : dish (su_tel (effelsberg_disk sr name)) (annulus 50 sr).
Proof.
  unfold dish, effelsberg_disk. cbn [su_tel tel_pr block_dist opd_func]. split; [reflexivity|]. split; [intros; apply (proj1 (block_manual_iff 50 sr 0 0 x y))|].
  split; [intros; apply block_a0|intros; apply opd_effelsberg_manual].
Qed.
Lemma dish_iff t P Q : (forall x y, P x y <-> Q x y) -> dish t P -> dish t Q.
Proof. intros H (A & B & C & D). split; [exact A|]. split; [exact B|]. split; [|exact D]. intros x y. rewrite C. apply H. Qed.

(** ** Orders *)
Lemma fitpar_documented N n : In ["fitpar_n" ^^ dec n ^^ ".csv"] (documented N true) -> (1 <= n <= N)%nat.
Proof.
  intros H. apply documented_in in H as (_ & m & Hm & H). apply rel_names_in in H. destruct H as [(pre & E & Hp)|[(_ & f & E & Hf)|(_ & [E|[(pre & E & _)|(_ & E)]])]]; try discriminate E.
  - injection E as E. assert (pre = "fitpar_n") as ->.
    { cbn [In] in Hp. repeat match goal with H : _ \/ _ |- _ => destruct H as [H|H] end; subst; try contradiction; try reflexivity; cbn in E; discriminate E. }
    apply (sapp_inv_head "fitpar_n") in E. apply sapp_inv_tail, dec_inj in E. subst m. exact Hm.
  - injection E as E. rewrite <- E in Hf. exfalso. cbn [In] in Hf. str_in Hf.
Qed.
Lemma orders_stored orc sc cwd files stems su s s' : wf s -> (1 <= sc_order_max sc)%nat -> sc_setups sc = [su] -> input_files cwd s files stems -> room sc stems s ->
  run (batch orc sc cwd files) s = (Ok tt, s') ->
  exists obs dirs, Forall2 (observed cwd s) files obs /\ NoDup dirs /\
    Forall2 (fun ob d => s d = None /\ csv_file s' d "beam_data.csv" ("Normalized beam " ^^ ob_name ob) (A2 (ob_beam ob)) /\
      forall n, (exists rows, fitpar_rows s' d n rows) <-> (1 <= n <= sc_order_max sc)%nat) obs dirs.
Proof.
  intros W N SU IF RO H. destruct (batch_all orc sc cwd files stems s s' W N IF RO H) as (U & obs & dirs & OB & ND & FD & FR).
  rewrite SU, prod_one in FD. apply Forall2_map_l in FD. cbn [fst snd] in FD. exists obs, dirs. split; [exact OB|]. split; [exact ND|].
  assert (LEN : forall d, In d dirs -> length d = length (numbered (sc_work_dir sc) "" 0)).
  { intros d Hd. destruct (Forall2_right _ _ _ _ FD Hd) as (ob & _ & a & FO & _ & (j & _ & -> & _) & _).
    destruct FO as (_ & _ & _ & _ & _ & _ & _ & _ & _ & _ & _ & _ & _ & _ & _ & _ & _ & _ & _ & _ & _ & EW). unfold fit_dir. rewrite EW. rewrite !numbered_length. reflexivity. }
  assert (IND : forall d, In d dirs -> s d = None -> forall n rows, fitpar_rows s' d n rows -> (1 <= n <= sc_order_max sc)%nat).
  { intros d Hd Hn n rows HF. destruct (Nat.le_gt_cases 1 n) as [L|L]; [destruct (Nat.le_gt_cases n (sc_order_max sc)) as [L2|L2]; [lia|]|]; exfalso;
      (unfold fitpar_rows in HF; rewrite FR in HF; [rewrite (wf_under s d _ W Hn) in HF; discriminate HF|]; intros d' Hd' [A|[A|(f & Hf & A)]];
       [destruct A as [t A]; apply (f_equal (@length _)) in A; rewrite !app_length, (LEN d Hd), (LEN d' Hd') in A; cbn [length] in A; lia
       |apply same_length_app in A as [_ A]; [discriminate A|rewrite (LEN d Hd), (LEN d' Hd'); reflexivity]
       |apply same_length_app in A as [_ A]; [rewrite <- A in Hf; apply fitpar_documented in Hf; lia|rewrite (LEN d Hd), (LEN d' Hd'); reflexivity]]). }
  clear - FD IND. induction FD as [|ob d l m (a & FO & Hn & RI) FD IH]; constructor; [|apply IH; intros d' Hd'; apply IND; right; exact Hd'].
  split; [exact Hn|]. destruct FO as (E1 & _ & _ & _ & _ & _ & _ & E2 & _ & _ & _ & _ & _ & _ & _ & E3 & _). destruct RI as (_ & _ & _ & B & _ & _ & _ & O).
  rewrite E1, E2 in B. split; [exact B|]. intros n. split; [intros [rows R]; apply (IND d (or_introl eq_refl) Hn n rows R)|]. intros L. rewrite E3 in O.
  destruct (O n L) as (rows & out & r & xy & ph & cov & cor & idx & FR & _). exists rows. exact FR.
Qed.

(** ** The simulation *)
Lemma call_explained orc gd fmt cwd s ob fig s' : (forall x, so_f32 orc x = Fin x) -> wf s -> s (sim_file (sim_call cwd) 0) = None ->
  run (simulate_script orc gd fmt (sim_call cwd)) s = (Ok (ob, fig), s') ->
  exists tel U V n, dish tel (shadowed 10) /\ ob_u ob = map (map Fin) U /\ ob_v ob = map (map Fin) V /\ (0 < n)%nat /\ map (@length num) (ob_beam ob) = [n; n; n] /\
    ob_d_z ob = [- (22 / 1000); 0; 22 / 1000] /\ ob_wavel ob = 93685143125 / 10000000000000 /\
    residual_true illum_parabolic tel ([1; - (145 / 10); 2; 0; 0] ++ repeat (1 / 10) 21) (ob_beam ob) U V [- (22 / 1000); 0; 22 / 1000] (93685143125 / 10000000000000) 256 5 = Ok (repeat 0 (3 * n)).
Proof.
  intros HF W N0 H. destruct (sim_script_fresh orc gd fmt (sim_call cwd) s ob fig s' (call_physical cwd) W N0 H) as (z0 & z1 & z2 & rest & u & F0 & F1 & F2 & i0 & k & x & y & EZ & _ & _ & _ & EW & ED & _).
  cbn [si_d_z sim_call] in EZ. injection EZ as <- <- <- _. cbn [si_wavel sim_call] in EW.
  destruct (sim_script_inv orc gd fmt (sim_call cwd) s ob fig s' H) as (f & u' & v' & H1 & H2 & _).
  destruct (sim_success orc (sim_call cwd) s f s' W H1) as (T & j & _ & _ & _ & Hj & Hn & Hlt & Hs & _).
  assert (j = 0%nat) as -> by (destruct j; [reflexivity|]; exfalso; apply (Hlt 0%nat); [lia|exact N0]).
  destruct (end_exact orc (sim_call cwd) s f s' (si_work_dir (sim_call cwd)) shown_path _ _ 0 (call_physical cwd) W H1 N0 ltac:(rewrite Hs; discriminate) shown_names (shown_resolve _) eq_refl HF eq_refl)
    as (ob' & U & V & n & E & EU & EV & Ln & LB & R).
  rewrite H2 in E. apply Ok_inj in E. subst ob'. exists (su_tel (effelsberg 10 "effelsberg")), U, V, n. split; [apply effelsberg_dish; lra|].
  rewrite ED, EW in R. auto 10.
Qed.
