(** C102: the signal-to-noise ratios of the maps. *)
From Coq Require Import Reals List Lia Lra String.
From Verif Require Import PyBase Num MMath MFs MOut SMath SOut SFit SSnr PSnr2 PDemo.
Import ListNotations.
Open Scope R_scope.

(** Peak over standard deviation, pixels without a value ignored. *)
Theorem C102_missing_pixels n0 n1 f u v centre radius peak : peak_of n0 n1 f peak -> noise_values n0 n1 f u v centre radius <> [] ->
  snr_grid (picture n0 n1 f) (map u (seq 0 n1)) (map v (seq 0 n0)) centre radius = ndiv (Fin peak) (Fin (stdR (noise_values n0 n1 f u v centre radius))).
Proof. exact (grid_missing n0 n1 f u v centre radius peak). Qed.
Print Assumptions C102_missing_pixels.
(** A map that does not reach the noise disk has the ratio NaN. *)
Theorem C102_no_noise n0 n1 f u v centre radius : noise_values n0 n1 f u v centre radius = [] ->
  snr_grid (picture n0 n1 f) (map u (seq 0 n1)) (map v (seq 0 n0)) centre radius = NaN.
Proof. exact (grid_no_noise n0 n1 f u v centre radius). Qed.
Print Assumptions C102_no_noise.
(** Scattered maps: the same on 300 x 300 points between the extreme coordinates. *)
Theorem C102_scattered gd b u v u0 u1 v0 v1 centre radius f peak : smallest u u0 -> largest u u1 -> smallest v v0 -> largest v v1 ->
  gd u v b (map (spread u0 u1) (seq 0 300)) (map (spread v0 v1) (seq 0 300)) = picture 300 300 f -> peak_of 300 300 f peak ->
  noise_values 300 300 f (spread u0 u1) (spread v0 v1) centre radius <> [] ->
  snr_scatter gd b u v centre radius = Ok (ndiv (Fin peak) (Fin (stdR (noise_values 300 300 f (spread u0 u1) (spread v0 v1) centre radius)))).
Proof. exact (scatter_value gd b u v u0 u1 v0 v1 centre radius f peak). Qed.
Print Assumptions C102_scattered.
(** No points. *)
Theorem C102_empty gd b u v centre radius : u = [] \/ v = [] -> snr_scatter gd b u v centre radius = Err ValueError.
Proof. exact (scatter_fails gd b u v centre radius). Qed.
Print Assumptions C102_empty.
(** A fit computes one ratio for each of its three maps, in their order. *)
Theorem C102_values orc a snrs : snr_values orc a = Ok snrs <-> ratios orc a snrs.
Proof. exact (values_iff orc a snrs). Qed.
Print Assumptions C102_values.
(** It stores them. *)
Theorem C102_stored orc a s s' c : file_tree s -> run (fit_zpoly orc a) s = (Ok tt, s') -> free_number a s -> configured a s c -> (1 <= fa_order_max a)%nat ->
  exists j i, (j <= 100)%nat /\ s (numbered (fit_dir a) (fa_name a) j) = None /\ s' (numbered (fit_dir a) (fa_name a) j ++ ["pyoof_info.yml"%string]) = Some (File (Info i)) /\ ratios orc a (ri_snr i).
Proof. exact (stored_ratios orc a s s' c). Qed.
Print Assumptions C102_stored.
(** They do not depend on the gains of the maps. *)
Theorem C102_gains orc a b snrs snrs' : fa_u a = fa_u b -> fa_v a = fa_v b -> amplified (fa_beam a) (fa_beam b) -> homogeneous (or_griddata orc) ->
  ratios orc a snrs -> ratios orc b snrs' -> snrs' = snrs.
Proof. exact (fun U V A H R R' => ratios_unique orc b snrs' snrs R' (ratios_amplified orc a b snrs U V A H R)). Qed.
Print Assumptions C102_gains.
(** Normalising a map changes its ratio. *)
Theorem C102_normalised_refuted : exists (P : list (list num)) (Q : list (list R)) x y, norm_all (concat P) = Ok (concat Q) /\ length P = 2%nat /\ length Q = 2%nat /\
  (forall r, In r P -> length r = 2%nat) /\ (forall r, In r Q -> length r = 2%nat) /\
  snr_grid P [0; 1] [0; 1] 0 2 = Fin x /\ snr_grid (map (map Fin) Q) [0; 1] [0; 1] 0 2 = Fin y /\ x <> y.
Proof. exact norm_changes. Qed.
Print Assumptions C102_normalised_refuted.

Definition holes (j i : nat) : option R := match j, i with O, O => None | S O, S O => Some 3 | _, _ => Some 1 end.
Example C102_nonvacuous : peak_of 2 2 holes 3 /\ noise_values 2 2 holes INR INR 0 2 = [1; 1; 3] /\ noise_values 2 2 holes INR INR 10 1 = [].
Proof.
  split; [split; [exists 1%nat, 1%nat; repeat split; lia|]|].
  { intros [|[|j]] [|[|i]] a Hj Hi; cbn; intros E; try discriminate; try lia; injection E as <-; lra. }
  assert (A : forall i j, (i < 2)%nat -> (j < 2)%nat -> (INR i - 0) ^ 2 + (INR j - 0) ^ 2 < 2 ^ 2) by (intros [|[|i]] [|[|j]] Hi Hj; try lia; cbn; lra).
  assert (B : forall i j, (i < 2)%nat -> (j < 2)%nat -> ~ (INR i - 10) ^ 2 + (INR j - 10) ^ 2 < 1 ^ 2) by (intros [|[|i]] [|[|j]] Hi Hj; try lia; cbn; lra).
  split; unfold noise_values; cbn [seq flat_map].
  - repeat (destruct (Rlt_dec _ _) as [_|X]; [|exfalso; apply X, A; lia]). reflexivity.
  - repeat (destruct (Rlt_dec _ _) as [X|_]; [exfalso; revert X; apply B; lia|]). reflexivity.
Qed.
(** A beam that falls off from the corner, known everywhere but in the last column. *)
Definition ramp (j i : nat) : option R := if Nat.ltb i 299 then Some (400 - INR i) else None.
Definition ramps (pu pv : list R) (b : list num) (gu gv : list R) : list (list num) := picture 300 300 ramp.
Example C102_nonvacuous_scattered : smallest [0; 1] 0 /\ largest [0; 1] 1 /\
  ramps [0; 1] [0; 1] [Fin 1; Fin 0] (map (spread 0 1) (seq 0 300)) (map (spread 0 1) (seq 0 300)) = picture 300 300 ramp /\ peak_of 300 300 ramp 400 /\
  noise_values 300 300 ramp (spread 0 1) (spread 0 1) 0 1 <> [].
Proof.
  split; [split; [cbn; tauto|cbn; intros y Hy; lra]|]. split; [split; [cbn; tauto|cbn; intros y Hy; lra]|]. split; [reflexivity|]. split; [split|].
  - exists 0%nat, 0%nat. split; [lia|]. split; [lia|]. unfold ramp. change (Nat.ltb 0 299) with true. cbv iota. f_equal. change (INR 0) with 0. lra.
  - intros j i a _ _ E. unfold ramp in E. destruct (Nat.ltb i 299); [|discriminate]. injection E as <-. pose proof (pos_INR i). lra.
  - intros E. assert (I : In (400 - INR 0) (noise_values 300 300 ramp (spread 0 1) (spread 0 1) 0 1)); [|rewrite E in I; exact I].
    unfold noise_values. apply in_flat_map. exists 0%nat. split; [apply in_seq; lia|]. apply in_flat_map. exists 0%nat. split; [apply in_seq; lia|].
    destruct (Rlt_dec _ _) as [_|X]; [left; reflexivity|]. exfalso. apply X. unfold spread. change (INR 0) with 0. lra.
Qed.
Example C102_nonvacuous_fit : exists s', file_tree demo_fs /\ run (fit_zpoly demo_oracle (demo_args "obs" 2)) demo_fs = (Ok tt, s') /\
  free_number (demo_args "obs" 2) demo_fs /\ configured (demo_args "obs" 2) demo_fs default_config /\ (1 <= fa_order_max (demo_args "obs" 2))%nat.
Proof. destruct (demo_runs "obs" 2) as [s' H]. exists s'. split; [exact demo_tree|]. split; [exact H|]. split; [apply demo_free|]. split; [reflexivity|cbn; lia]. Qed.
Example C102_nonvacuous_gains : amplified [[Fin 1; NaN]; [Fin 3; Fin 4]] [[Fin (2 * 1); NaN]; [Fin (5 * 3); Fin (5 * 4)]] /\ homogeneous (fun _ _ vals _ _ => [vals]).
Proof.
  split; [split; [reflexivity|]|intros g _ pu pv vals gu gv; reflexivity].
  intros [|[|k]] a b Ha Hb; cbn in Ha, Hb; [injection Ha as <-; injection Hb as <-; exists 2; split; [lra|reflexivity]|injection Ha as <-; injection Hb as <-; exists 5; split; [lra|reflexivity]|].
  destruct k; discriminate.
Qed.
