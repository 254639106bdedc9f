(** Property theorems C48-C50, C70, C79: simulated observations. *)
From Coq Require Import String Ascii List.
From Verif Require Import PyBase Num MZernike MMath MAperture MTel MRad MFs MAux MSim SAux SSim SFit SOut MCore SCore PSim PSim2 PSim3 PDemo PEnd PEndDemo.
From Coquelicot Require Import Complex.
Import ListNotations.
Open Scope R_scope.
Open Scope string_scope.
Open Scope list_scope.

(** C48. Reading back the file a simulation has left. *)
Theorem C48_round_trip orc a s f s' cwd p dir stem j : physical a -> file_tree s -> run (simulate_data_pyoof orc a) s = (Ok f, s') ->
  s (generated (si_work_dir a) j) = None -> s' (generated (si_work_dir a) j) <> None ->
  names_fits p dir stem -> resolve cwd p = generated (si_work_dir a) j ->
  exists z0 z1 z2 rest u F0 F1 F2 i0 k ob, si_d_z a = z0 :: z1 :: z2 :: rest /\ beams a z0 z1 z2 u F0 F1 F2 /\ window u (half_width a) i0 k /\
    fst (run (extract_data_pyoof cwd p) s') = Ok ob /\
    ob_name ob = "test" ^^ pad3 j /\ ob_object ob = HStr ("test" ^^ pad3 j) /\ ob_date ob = HStr (so_now orc) /\
    ob_wavel ob = si_wavel a /\ ob_freq ob * ob_wavel ob = 299792458 /\ ob_meanel ob = 0 /\ ob_d_z ob = [z0; z1; z2] /\
    let c i F := sim_columns orc (si_noise a) i u F i0 k in
    ob_beam ob = [fst (fst (c 0%nat F0)); fst (fst (c 1%nat F1)); fst (fst (c 2%nat F2))] /\
    ob_u ob = [snd (fst (c 0%nat F0)); snd (fst (c 1%nat F1)); snd (fst (c 2%nat F2))] /\
    ob_v ob = [snd (c 0%nat F0); snd (c 1%nat F1); snd (c 2%nat F2)].
Proof. rewrite <- limit_eq. exact (round_trip orc a s f s' cwd p dir stem j). Qed.
Print Assumptions C48_round_trip.

(** C49. *)
Theorem C49_offsets_rejected orc a z0 z1 z2 rest : si_d_z a = z0 :: z1 :: z2 :: rest -> z0 > 0 \/ z1 <> 0 \/ z2 < 0 ->
  simulate_data_pyoof orc a = Raise ValueError.
Proof. exact (fun E H => sim_bad_offsets orc a z0 z1 z2 rest E (fun O => match O with conj A (conj B C) =>
  match H with or_introl X => Rlt_not_le _ _ X A | or_intror (or_introl X) => X B | or_intror (or_intror X) => Rlt_not_le _ _ X C end end)). Qed.
Print Assumptions C49_offsets_rejected.
(** Every other triple is accepted, [0, 0, 0] included. *)
Theorem C49_succeeds orc a s z0 z1 z2 rest W Ea : physical a -> (2 <= si_resolution a)%nat ->
  wavefront (si_K a) = Ok W -> si_illum a (si_I a) (tel_pr (si_tel a)) = Ok Ea ->
  si_d_z a = z0 :: z1 :: z2 :: rest -> z0 <= 0 /\ z1 = 0 /\ 0 <= z2 ->
  (forall i, (i < si_resolution a)%nat -> Rabs (INR i - INR (si_resolution a / 2)) * (INR (si_resolution a) - 1) <> 9.76 * si_box_factor a * INR (si_resolution a)) ->
  file_tree s -> sim_usable a s -> (exists j, (j <= 100)%nat /\ s (generated (si_work_dir a) j) = None) ->
  exists f s', run (simulate_data_pyoof orc a) s = (Ok f, s').
Proof. exact (sim_total orc a s z0 z1 z2 rest W Ea). Qed.
Print Assumptions C49_succeeds.
Theorem C49_three_in_focus_refuted : exists orc a s f s', si_d_z a = [0; 0; 0] /\ run (simulate_data_pyoof orc a) s = (Ok f, s').
Proof.
  destruct (demo_sim_runs 256 5 [0; 0; 0] 0 0 0) as (f & s' & R); [lia|lra|reflexivity|repeat split; lra|intros i I; replace 5 with (INR 5) by (cbn; lra); apply (power2_arith 8 5 i); [lia|exact I]|].
  exists demo_outside, (demo_sim 256 5 [0; 0; 0]), sim_fs, f, s'. split; [reflexivity|exact R].
Qed.
Print Assumptions C49_three_in_focus_refuted.
(** The file is new, has the first free number, and nothing else changes except
    directories created on the way. *)
Theorem C49_new_file orc a s f s' : file_tree s -> run (simulate_data_pyoof orc a) s = (Ok f, s') ->
  exists j, (j <= 100)%nat /\ s (generated (si_work_dir a) j) = None /\ (forall i, (i < j)%nat -> s (generated (si_work_dir a) i) <> None) /\
    s' (generated (si_work_dir a) j) = Some (File (Fits f)) /\
    forall q, q <> generated (si_work_dir a) j -> s' q = s q \/ (s q = None /\ s' q = Some Dir /\ above q (si_work_dir a ++ ["data_generated"])).
Proof. intros WF R. destruct (sim_success orc a s f s' WF R) as (T & j & _ & _ & _ & H). exists j. exact H. Qed.
Print Assumptions C49_new_file.
(** Whatever happens, and wherever it is cut short, nothing that exists is touched. *)
Theorem C49_nothing_overwritten orc a s n q : s q <> None -> snd (steps n (simulate_data_pyoof orc a) s) q = s q.
Proof. exact (proj1 (PFs.always_steps _ _ s n (sim_unaltered orc a s)) q). Qed.
Print Assumptions C49_nothing_overwritten.
(** With the numbers 000 to 100 taken, a simulation that succeeds elsewhere stops with UnboundLocalError. *)
Theorem C49_hundred_and_second orc a s0 f s1 s : file_tree s0 -> run (simulate_data_pyoof orc a) s0 = (Ok f, s1) ->
  s (si_work_dir a ++ ["data_generated"]) = Some Dir -> (forall j, (j <= 100)%nat -> s (generated (si_work_dir a) j) <> None) ->
  run (simulate_data_pyoof orc a) s = (Err UnboundLocalError, s).
Proof. intros WF R D H. apply (sim_full_anywhere orc a s0 f s1 s WF R); [|exact H]. change (s (si_work_dir a ++ ["data_generated"]) <> None). rewrite D. discriminate. Qed.
Print Assumptions C49_hundred_and_second.
Definition half_full : fs := fun q => match q with [] | ["w"] | ["w"; "data_generated"] => Some Dir | ["w"; "data_generated"; _] => Some (File Partial) | _ => None end.
Example C49_nonvacuous : (exists f s', run (simulate_data_pyoof demo_outside (demo_sim 4 (1 / 10) [-2; 0; 3])) sim_fs = (Ok f, s') /\ s' ["w"; "data_generated"; "test001.fits"] = Some (File (Fits f))) /\
  sim_fs ["w"; "data_generated"; "test000.fits"] <> None /\ sim_usable (demo_sim 4 (1 / 10) [-2; 0; 3]) sim_fs /\
  file_tree sim_fs /\ forall j, (j <= 100)%nat -> half_full (generated ["w"] j) <> None.
Proof.
  destruct (demo_sim_runs 4 (1 / 10) [-2; 0; 3] (-2) 0 3) as (f & s' & R); [lia|lra|reflexivity|repeat split; lra| |].
  { intros i I. destruct i as [|[|[|[|i]]]]; [| | | |lia]; cbn [INR Nat.div Nat.divmod fst Nat.sub]; unfold Rabs; destruct (Rcase_abs _); lra. }
  destruct (sim_success _ _ _ _ _ sim_tree R) as (T & j & _ & ET & _ & J & N & Q & W & _).
  split; [exists f, s'; split; [exact R|]|].
  - destruct j as [|[|j]].
    + exfalso. revert N. unfold sim_file, sim_fs, listed. cbn [si_work_dir demo_sim app]. destruct (in_dec _ _ _); [discriminate|]. destruct (path_eq_dec _ _) as [|X]; [discriminate|]. exfalso. apply X. reflexivity.
    + exact W.
    + exfalso. apply (Q 1%nat); [lia|]. unfold sim_file, sim_fs, listed. destruct (in_dec _ _ _) as [I|_]; [exfalso; cbn in I; intuition discriminate|]. destruct (path_eq_dec _ _); [discriminate|reflexivity].
  - split; [|split; [|split]].
    + unfold sim_fs, listed. destruct (in_dec _ _ _); [discriminate|]. destruct (path_eq_dec _ _) as [|X]; [discriminate|]. exfalso. apply X. reflexivity.
    + split; [reflexivity|right; reflexivity].
    + exact sim_tree.
    + intros j0 _. discriminate.
Qed.

(** C48 on that run. *)
Example C48_nonvacuous : exists f s', physical (demo_sim 4 (1 / 10) [-2; 0; 3]) /\ run (simulate_data_pyoof demo_outside (demo_sim 4 (1 / 10) [-2; 0; 3])) sim_fs = (Ok f, s') /\
  sim_fs (generated ["w"] 1) = None /\ s' (generated ["w"] 1) <> None /\
  names_fits "data_generated/test001.fits" "data_generated/" "test001" /\ resolve ["w"] "data_generated/test001.fits" = generated ["w"] 1.
Proof.
  destruct C49_nonvacuous as ((f & s' & R & W) & _). exists f, s'. split; [apply demo_physical; lra|]. split; [exact R|]. split; [|split; [|split; [|reflexivity]]].
  - unfold generated, sim_fs, listed. destruct (in_dec _ _ _) as [I|_]; [exfalso; cbn in I; intuition discriminate|]. destruct (path_eq_dec _ _); [discriminate|reflexivity].
  - change (generated ["w"] 1) with ["w"; "data_generated"; "test001.fits"]. rewrite W. discriminate.
  - split; [reflexivity|]. split; [right; exists "data_generated"; reflexivity|]. split; [cbn; intuition discriminate|]. exists "t"%char. split; [left; reflexivity|discriminate].
Qed.

(** C50. A success keeps one k by k block of pixels for power, u and v. *)
Theorem C50_block orc a s f s' : physical a -> file_tree s -> run (simulate_data_pyoof orc a) s = (Ok f, s') ->
  exists z0 z1 z2 rest u F0 F1 F2 t0 t1 t2 i0 k, si_d_z a = z0 :: z1 :: z2 :: rest /\ beams a z0 z1 z2 u F0 F1 F2 /\
    clear_of u (half_width a) /\ window u (half_width a) i0 k /\ (0 < k)%nat /\ ff_tables f = [t0; t1; t2] /\
    th_name t0 = "MINUS OOF" /\ th_name t1 = "ZERO OOF" /\ th_name t2 = "PLUS OOF" /\
    holds_map t0 (sim_columns orc (si_noise a) 0 u F0 i0 k) z0 /\ holds_map t1 (sim_columns orc (si_noise a) 1 u F1 i0 k) z1 /\
    holds_map t2 (sim_columns orc (si_noise a) 2 u F2 i0 k) z2.
Proof.
  rewrite <- limit_eq. intros Ph WF R.
  destruct (sim_complete orc a s f s' Ph WF R) as (z0 & z1 & z2 & rest & u & F0 & F1 & F2 & t0 & t1 & t2 & i0 & k & j & E & _ & B & C & Wi & K & _ & _ & -> & N0 & N1 & N2 & H0 & H1 & H2).
  exists z0, z1, z2, rest, u, F0, F1, F2, t0, t1, t2, i0, k. auto 20.
Qed.
Print Assumptions C50_block.
(** A sample exactly on the limit: ValueError, nothing written. *)
Theorem C50_on_the_limit orc a z0 z1 z2 rest u F0 F1 F2 : physical a -> si_d_z a = z0 :: z1 :: z2 :: rest -> beams a z0 z1 z2 u F0 F1 F2 ->
  ~ clear_of u (half_width a) -> simulate_data_pyoof orc a = Raise ValueError.
Proof. rewrite <- limit_eq. exact (sim_on_limit orc a z0 z1 z2 rest u F0 F1 F2). Qed.
Print Assumptions C50_on_the_limit.
(** When that is: a condition on resolution and box factor only. *)
Theorem C50_condition a z u v F : physical a -> beam_of a z = Ok (u, v, F) ->
  (clear_of u (half_width a) <-> forall i, (i < si_resolution a)%nat ->
     Rabs (INR i - INR (si_resolution a / 2)) * (INR (si_resolution a) - 1) <> 9.76 * si_box_factor a * INR (si_resolution a)).
Proof. rewrite <- limit_eq. exact (clear_iff a z u v F). Qed.
Print Assumptions C50_condition.
(** Never for a resolution that is a power of two and an integer box factor. *)
Theorem C50_recommended_safe p b i : (0 < b)%nat -> (i < 2 ^ p)%nat -> Rabs (INR i - INR (2 ^ p / 2)) * (INR (2 ^ p) - 1) <> 9.76 * INR b * INR (2 ^ p).
Proof. exact (power2_arith p b i). Qed.
Print Assumptions C50_recommended_safe.
(** Resolution 245 and box factor 5 fail whatever the other arguments. *)
Theorem C50_resolution_245_refuted orc a z0 z1 z2 rest W Ea : physical a -> si_resolution a = 245%nat -> si_box_factor a = 5 ->
  wavefront (si_K a) = Ok W -> si_illum a (si_I a) (tel_pr (si_tel a)) = Ok Ea -> si_d_z a = z0 :: z1 :: z2 :: rest ->
  simulate_data_pyoof orc a = Raise ValueError.
Proof.
  intros Ph N B HW HE E. apply (sim_hit orc a 171 z0 z1 z2 rest W Ea Ph); rewrite ?N; try assumption; try lia.
  rewrite B, !INR_IZR_INZ. replace (Z.of_nat (245 / 2)) with 122%Z by reflexivity. change (Z.of_nat 171) with 171%Z. change (Z.of_nat 245) with 245%Z.
  replace (171 - 122) with 49 by lra. rewrite Rabs_right by lra. lra.
Qed.
Print Assumptions C50_resolution_245_refuted.
Example C50_nonvacuous : (exists a, physical a /\ si_resolution a = 245%nat /\ si_box_factor a = 5 /\ si_d_z a = [-2; 0; 3] /\
    exists W Ea, wavefront (si_K a) = Ok W /\ si_illum a (si_I a) (tel_pr (si_tel a)) = Ok Ea) /\
  exists u F0 F1 F2 i0 k, beams (demo_sim 4 (1 / 10) [-2; 0; 3]) (-2) 0 3 u F0 F1 F2 /\ window u (half_width (demo_sim 4 (1 / 10) [-2; 0; 3])) i0 k /\ (0 < k < 4)%nat.
Proof.
  split.
  - exists (demo_sim 245 5 [-2; 0; 3]). split; [apply demo_physical; lra|]. split; [reflexivity|]. split; [reflexivity|]. split; [reflexivity|]. apply demo_wave.
  - destruct (demo_wave 4 (1 / 10) [-2; 0; 3]) as (W & Ea & HW & HE).
    destruct (beams_exist (demo_sim 4 (1 / 10) [-2; 0; 3]) (-2) 0 3 W Ea ltac:(cbn; lia) HW HE) as (u & F0 & F1 & F2 & B).
    assert (Ph : physical (demo_sim 4 (1 / 10) [-2; 0; 3])) by (apply demo_physical; lra).
    pose proof B as (v0 & v1 & v2 & B0 & _).
    destruct (axis_window _ (-2) u v0 F0 Ph B0) as (i0 & k & Wi & K). exists u, F0, F1, F2, i0, k. rewrite <- limit_eq. split; [exact B|]. split; [exact Wi|]. split; [exact K|].
    destruct Ph as (P1 & P2 & P3). destruct (PRad.axes_api _ _ _ _ _ _ _ _ _ _ _ P1 P2 P3 B0) as (_ & Lu & _ & _ & _ & _ & Nth & _).
    destruct Wi as (L & Wi). rewrite Lu in L. cbn [si_resolution demo_sim] in L. destruct (Nat.eq_dec k 4) as [->|]; [|lia]. exfalso.
    specialize (Wi 0%nat). rewrite Lu in Wi. cbn [si_resolution demo_sim] in Wi. specialize (Wi ltac:(lia)). assert (X : Rabs (nth 0 u 0) < sim_limit (demo_sim 4 (1 / 10) [-2; 0; 3])) by (apply Wi; lia).
    rewrite (Nth 0%nat) in X by (cbn; lia). unfold sim_limit in X. cbn [si_wavel si_tel demo_sim tel_pr demo_tel si_resolution si_box_factor Nat.div Nat.divmod fst Nat.sub INR] in X.
    unfold Rabs in X. destruct (Rcase_abs _) as [Y|Y]; lra.
Qed.

(** C70. Two simulations at once in one directory may pick the same number: both
    succeed and only the second's file remains. *)
Theorem C70_concurrent_refuted oa ob a b s fa fb sa sb : file_tree s -> si_work_dir a = si_work_dir b -> s (si_work_dir a ++ ["data_generated"]) = Some Dir ->
  run (simulate_data_pyoof oa a) s = (Ok fa, sa) -> run (simulate_data_pyoof ob b) s = (Ok fb, sb) ->
  exists sched s' j, interleave sched (simulate_data_pyoof oa a) (simulate_data_pyoof ob b) s = (Ret fa, Ret fb, s') /\
    s (generated (si_work_dir a) j) = None /\ sa (generated (si_work_dir a) j) = Some (File (Fits fa)) /\
    s' (generated (si_work_dir a) j) = Some (File (Fits fb)) /\ forall q, q <> generated (si_work_dir a) j -> s' q = s q.
Proof. exact (sim_race_alone oa ob a b s fa fb sa sb). Qed.
Print Assumptions C70_concurrent_refuted.
Example C70_nonvacuous : exists fa sa, file_tree sim_fs /\ sim_fs ["w"; "data_generated"] = Some Dir /\
  run (simulate_data_pyoof demo_outside (demo_sim 4 (1 / 10) [-2; 0; 3])) sim_fs = (Ok fa, sa).
Proof. destruct C49_nonvacuous as ((f & s' & R & _) & _). exists f, s'. split; [exact sim_tree|]. split; [reflexivity|exact R]. Qed.

(** C79. From the simulator through the file to the residual. *)
(** Without noise (and when single precision is exact on the stored numbers) the
    residual of the parameters that were simulated is zero at every data point. *)
Theorem C79_true_parameters orc a s f s' cwd p dir stem j : physical a -> file_tree s -> run (simulate_data_pyoof orc a) s = (Ok f, s') ->
  s (generated (si_work_dir a) j) = None -> s' (generated (si_work_dir a) j) <> None ->
  names_fits p dir stem -> resolve cwd p = generated (si_work_dir a) j ->
  length (si_I a) = 5%nat -> (forall x, so_f32 orc x = Fin x) -> si_noise a = 0 ->
  exists ob U V n, fst (run (extract_data_pyoof cwd p) s') = Ok ob /\ ob_u ob = map (map Fin) U /\ ob_v ob = map (map Fin) V /\ (0 < n)%nat /\
    map (@length num) (ob_beam ob) = [n; n; n] /\
    residual_true (si_illum a) (si_tel a) (si_I a ++ si_K a) (ob_beam ob) U V (ob_d_z ob) (ob_wavel ob) (si_resolution a) (si_box_factor a) = Ok (repeat 0 (3 * n)).
Proof. exact (end_exact orc a s f s' cwd p dir stem j). Qed.
Print Assumptions C79_true_parameters.
(** With noise of size at most e it is at most 4 e / D, where D is the range of the
    noise-free maps (the smallest of the three). *)
Theorem C79_noise orc a s f s' cwd p dir stem j e : physical a -> file_tree s -> run (simulate_data_pyoof orc a) s = (Ok f, s') ->
  s (generated (si_work_dir a) j) = None -> s' (generated (si_work_dir a) j) <> None ->
  names_fits p dir stem -> resolve cwd p = generated (si_work_dir a) j ->
  length (si_I a) = 5%nat -> (forall x, so_f32 orc x = Fin x) -> (forall i r c, Rabs (so_normal orc (si_noise a) i r c) <= e) ->
  exists z0 z1 z2 rest u F0 F1 F2 i0 k ob U V, si_d_z a = z0 :: z1 :: z2 :: rest /\ beams a z0 z1 z2 u F0 F1 F2 /\ window u (half_width a) i0 k /\
    fst (run (extract_data_pyoof cwd p) s') = Ok ob /\ ob_u ob = map (map Fin) U /\ ob_v ob = map (map Fin) V /\
    forall D, 0 < D -> (forall F, In F [F0; F1; F2] -> exists r c r' c', (r < k /\ c < k /\ r' < k /\ c' < k)%nat /\
      D <= Cmod (at2 F (i0 + r) (i0 + c)) ^ 2 - Cmod (at2 F (i0 + r') (i0 + c')) ^ 2) ->
    exists res, residual_true (si_illum a) (si_tel a) (si_I a ++ si_K a) (ob_beam ob) U V (ob_d_z ob) (ob_wavel ob) (si_resolution a) (si_box_factor a) = Ok res /\
      length res = (3 * (k * k))%nat /\ forall x, In x res -> Rabs x <= 4 * e / D.
Proof. rewrite <- limit_eq. exact (end_noisy orc a s f s' cwd p dir stem j e). Qed.
Print Assumptions C79_noise.
(** The same for data that were not simulated: e bounds the distance of the data from the model. *)
Theorem C79_close illum tel params u_data v_data d_z wavel N bf e D m0 m1 m2 d0 d1 d2 : 0 < D ->
  model_row illum tel params u_data v_data d_z wavel N bf 0 = Ok m0 -> model_row illum tel params u_data v_data d_z wavel N bf 1 = Ok m1 ->
  model_row illum tel params u_data v_data d_z wavel N bf 2 = Ok m2 ->
  (forall d m, In (d, m) [(d0, m0); (d1, m1); (d2, m2)] -> Forall2 (fun x y => Rabs (x - y) <= e) d m /\ exists a b, In a m /\ In b m /\ D <= b - a) ->
  exists r, residual_true illum tel params [map Fin d0; map Fin d1; map Fin d2] u_data v_data d_z wavel N bf = Ok r /\
    length r = (length d0 + length d1 + length d2)%nat /\ forall x, In x r -> Rabs x <= 4 * e / D.
Proof.
  intros HD E0 E1 E2 H. apply (residual_close illum tel params u_data v_data d_z wavel N bf e D m0 m1 m2 d0 d1 d2 HD E0 E1 E2); try (apply H; cbn; tauto).
  intros m [<-|[<-|[<-|[]]]]; [apply (H d0)|apply (H d1)|apply (H d2)]; cbn; tauto.
Qed.
Print Assumptions C79_close.
Example C79_nonvacuous noise : let a := quiet_sim noise in
  (exists f s', physical a /\ file_tree sim_fs /\ run (simulate_data_pyoof quiet_outside a) sim_fs = (Ok f, s') /\
    sim_fs (generated ["w"] 1) = None /\ s' (generated ["w"] 1) <> None) /\
  length (si_I a) = 5%nat /\ (forall x, so_f32 quiet_outside x = Fin x) /\ (forall i r c, Rabs (so_normal quiet_outside noise i r c) <= Rabs noise) /\
  exists u F0 F1 F2 D, beams a (-2) 0 3 u F0 F1 F2 /\ window u (half_width a) 0 2 /\ 0 < D /\
    forall F, In F [F0; F1; F2] -> D <= Cmod (at2 F 1 1) ^ 2 - Cmod (at2 F 0 0) ^ 2.
Proof.
  intros a. destruct (quiet_beam noise (-2)) as (u & F0 & D0 & B0 & P0 & S0). destruct (quiet_beam noise 0) as (u1 & F1 & D1 & B1 & P1 & S1). destruct (quiet_beam noise 3) as (u2 & F2 & D2 & B2 & P2 & S2).
  pose proof (same_axis _ _ _ _ _ _ _ _ _ B0 B1) as ->. pose proof (same_axis _ _ _ _ _ _ _ _ _ B0 B2) as ->.
  split; [|split; [reflexivity|split; [reflexivity|split]]].
  - destruct (quiet_runs noise) as (f & s' & R & N0 & N1). exists f, s'. split; [apply quiet_physical|]. split; [exact sim_tree|]. split; [exact R|]. split; [exact N0|exact N1].
  - intros i r c. cbn [so_normal quiet_outside]. destruct (Nat.even _); [lra|rewrite Rabs_Ropp; lra].
  - exists u, F0, F1, F2, (Rmin D0 (Rmin D1 D2)). split; [exists u, u, u; repeat split; assumption|]. split; [|split].
    + pose proof (quiet_physical noise) as (Pw & Pp & Pb). destruct (PRad.axes_api _ _ _ _ _ _ _ _ _ _ _ Pw Pp Pb B0) as (_ & LU & _ & _ & _ & HA). cbv zeta in HA. destruct HA as (_ & HA & _).
      unfold window. rewrite LU. cbn [si_resolution quiet_sim]. split; [lia|]. intros i I. split; [intros _; lia|intros _]. rewrite HA by exact I. unfold half_width, a.
      cbn [si_resolution quiet_sim si_wavel si_tel tel_pr demo_tel si_box_factor Nat.div Nat.divmod fst Nat.sub].
      replace (1 / 100 * (INR 2 - 1) / (2 * (1 / 10 * 50) * INR 2)) with (1 / 2000) by (cbn [INR]; field). destruct i as [|[|i]]; [| |lia]; cbn [INR]; unfold Rabs; destruct (Rcase_abs _); lra.
    + repeat apply Rmin_glb_lt; assumption.
    + pose proof (Rmin_l D0 (Rmin D1 D2)). pose proof (Rmin_r D0 (Rmin D1 D2)). pose proof (Rmin_l D1 D2). pose proof (Rmin_r D1 D2). intros F [<-|[<-|[<-|[]]]]; lra.
Qed.
