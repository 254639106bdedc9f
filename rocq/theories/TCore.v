(** Property theorems C34-C37, C60: pyoof.core.residual_true, residual, params_complete. *)
From Coq Require Import Sorted.
From Verif Require Import PyBase PyLib Sums Num MMath SMath MAperture MTel MRad PIllum MCore SCore PAper PRad PResid PParams.
From Coquelicot Require Import Complex.
Open Scope R_scope.

(** C34. Size and range. *)
Theorem C34_shape illum tel params beam u_data v_data d_z wavel N bf r :
  residual_true illum tel params beam u_data v_data d_z wavel N bf = Ok r ->
  length r = length (concat beam) /\ forall x, In x r -> -1 <= x <= 1.
Proof. exact (residual_shape illum tel params beam u_data v_data d_z wavel N bf r). Qed.
Print Assumptions C34_shape.
(** Zero when each map is the model's map up to a positive gain and an offset. *)
Theorem C34_zero_on_model illum tel params u_data v_data d_z wavel N bf m0 m1 m2 g0 o0 g1 o1 g2 o2 :
  (forall i mi, In (i, mi) [(0%nat, m0); (1%nat, m1); (2%nat, m2)] -> model_row illum tel params u_data v_data d_z wavel N bf i = Ok mi /\ mi <> []) ->
  0 < g0 -> 0 < g1 -> 0 < g2 ->
  residual_true illum tel params [map (affine g0 o0) (map Fin m0); map (affine g1 o1) (map Fin m1); map (affine g2 o2) (map Fin m2)] u_data v_data d_z wavel N bf
  = Ok (repeat 0 (length m0 + length m1 + length m2)).
Proof. exact (residual_exact illum tel params u_data v_data d_z wavel N bf m0 m1 m2 g0 o0 g1 o1 g2 o2). Qed.
Print Assumptions C34_zero_on_model.
(** On well-shaped input: success iff every data point is on the FFT grid. *)
Theorem C34_grid illum tel params n b0 b1 b2 x0 x1 x2 y0 y1 y2 z0 z1 z2 wavel N bf Ea :
  0 < wavel -> 0 < tel_pr tel -> 0 < bf -> (2 <= N)%nat ->
  (2 * (length params - 5) = (n + 1) * (n + 2))%nat -> illum (firstn 5 params) (tel_pr tel) = Ok Ea ->
  b0 <> [] -> length b1 = length b0 -> length b2 = length b0 ->
  length x0 = length b0 -> length x1 = length b0 -> length x2 = length b0 -> length y0 = length b0 -> length y1 = length b0 -> length y2 = length b0 ->
  let all := x0 ++ y0 ++ x1 ++ y1 ++ x2 ++ y2 in
  let run := residual_true illum tel params [b0; b1; b2] [x0; x1; x2] [y0; y1; y2] [z0; z1; z2] wavel N bf in
  ((forall x, In x all -> in_grid (grid_step (tel_pr tel) wavel N bf) N x) -> exists r, run = Ok r /\ length r = (3 * length b0)%nat) /\
  ((exists x, In x all /\ ~ in_grid (grid_step (tel_pr tel) wavel N bf) N x) -> run = Err ValueError).
Proof. exact (residual_grid illum tel params n b0 b1 b2 x0 x1 x2 y0 y1 y2 z0 z1 z2 wavel N bf Ea). Qed.
Print Assumptions C34_grid.
(** The interpolation between FFT samples: exact at the samples, between the
    smallest and largest sample, exact for bilinear patterns. *)
Theorem C34_interp_exact u v vals i j : increasing u -> increasing v -> (2 <= length u)%nat -> (2 <= length v)%nat ->
  (i < length u)%nat -> (j < length v)%nat -> interp2 u v vals (nth i u 0) (nth j v 0) = nth i (nth j vals []) 0.
Proof. exact (interp_node u v vals i j). Qed.
Print Assumptions C34_interp_exact.
Theorem C34_interp_between u v vals x y lo hi : increasing u -> increasing v -> (2 <= length u)%nat -> (2 <= length v)%nat ->
  in_bounds u x = true -> in_bounds v y = true ->
  (forall i j, (i < length u)%nat -> (j < length v)%nat -> lo <= nth i (nth j vals []) 0 <= hi) ->
  lo <= interp2 u v vals x y <= hi.
Proof. exact (interp_between u v vals x y lo hi). Qed.
Print Assumptions C34_interp_between.
Theorem C34_interp_bilinear u v vals x y a b c d : increasing u -> increasing v -> (2 <= length u)%nat -> (2 <= length v)%nat ->
  in_bounds u x = true -> in_bounds v y = true ->
  (forall i j, (i < length u)%nat -> (j < length v)%nat -> nth i (nth j vals []) 0 = a + b * nth i u 0 + c * nth j v 0 + d * (nth i u 0 * nth j v 0)) ->
  interp2 u v vals x y = a + b * x + c * y + d * (x * y).
Proof. exact (interp_bilinear u v vals x y a b c d). Qed.
Print Assumptions C34_interp_bilinear.
Definition tel34 : telgeo := {| block_dist := block_manual 50 3 1 20; opd_func := opd_manual 30 300; tel_pr := 50 |}.
Example C34_nonvacuous : (exists r0 r1 r2, forall i mi, In (i, mi) [(0%nat, r0); (1%nat, r1); (2%nat, r2)] ->
    model_row illum_parabolic tel34 [1; -14; 2; 0; 0; 1; 2; 3] [[0]; [0]; [0]] [[0]; [0]; [0]] [-1; 0; 1] (1 / 100) 256 5 i = Ok mi /\ mi <> [])
  /\ in_grid (grid_step 50 (1 / 100) 256 5) 256 0 /\ ~ in_grid (grid_step 50 (1 / 100) 256 5) 256 1 /\ increasing [0; 1; 3].
Proof.
  assert (HI : exists Ea, illum_parabolic [1; -14; 2; 0; 0] (tel_pr tel34) = Ok Ea) by (eexists; reflexivity). destruct HI as [Ea HI].
  assert (HG : in_grid (grid_step 50 (1 / 100) 256 5) 256 0).
  { unfold in_grid, grid_step. change (256 / 2)%nat with 128%nat. change (256 - 1)%nat with 255%nat. rewrite !INR_IZR_INZ. cbn [Z.of_nat Pos.of_succ_nat Pos.succ]. lra. }
  split.
  - assert (M : forall i, (i < 3)%nat -> exists r, model_row illum_parabolic tel34 [1; -14; 2; 0; 0; 1; 2; 3] [[0]; [0]; [0]] [[0]; [0]; [0]] [-1; 0; 1] (1 / 100) 256 5 i = Ok r /\ r <> []).
    { intros i Hi. assert (exists dz, nth_error [-1; 0; 1] i = Some dz) as [dz Hd] by (destruct i as [|[|[|i]]]; [eexists; reflexivity|eexists; reflexivity|eexists; reflexivity|lia]).
      assert (Hx : nth_error [[0]; [0]; [0]] i = Some [0]) by (destruct i as [|[|[|i]]]; [reflexivity|reflexivity|reflexivity|lia]).
      destruct (model_row_total illum_parabolic tel34 [1; -14; 2; 0; 0; 1; 2; 3] 1 [[0]; [0]; [0]] [[0]; [0]; [0]] [-1; 0; 1] (1 / 100) 256 5 i [0] [0] Ea dz) as [[_ (r & E & L)]|[N _]]; try assumption; try (cbn; lra); try lia; try reflexivity.
      - exists r. split; [exact E|]. intros ->. discriminate.
      - exfalso. apply N. intros x [<-|[<-|[]]]; exact HG. }
    destruct (M 0%nat ltac:(lia)) as (r0 & E0). destruct (M 1%nat ltac:(lia)) as (r1 & E1). destruct (M 2%nat ltac:(lia)) as (r2 & E2).
    exists r0, r1, r2. intros i mi [H|[H|[H|[]]]]; injection H as <- <-; assumption.
  - split; [exact HG|]. split.
    + unfold in_grid, grid_step. change (256 / 2)%nat with 128%nat. change (256 - 1)%nat with 255%nat. rewrite !INR_IZR_INZ. cbn [Z.of_nat Pos.of_succ_nat Pos.succ]. lra.
    + intros a b Hab. cbn [length] in Hab. destruct a as [|[|[|a]]], b as [|[|[|b]]]; try lia; cbn; lra.
Qed.

(** C35. *)
Theorem C35_round_trip fixed ex N_K v : length fixed = 8%nat -> Sorted lt ex -> (forall e, In e ex -> (e < 8)%nat) ->
  (3 <= N_K)%nat -> length v = (5 + N_K)%nat ->
  exists p w, np_delete v (map Z.of_nat ex) = Ok p /\ (length p = 5 + N_K - length ex)%nat /\
    params_complete fixed (map Z.of_nat ex) N_K p = Ok w /\ length w = (5 + N_K)%nat /\
    forall i, (i < 5 + N_K)%nat -> nth i w 0 = if existsb (Nat.eqb i) ex then nth i fixed 0 else nth i v 0.
Proof. exact (params_round_trip fixed ex N_K v). Qed.
Print Assumptions C35_round_trip.
Example C35_nonvacuous : length [101; 102; 103; 104; 105; 106; 107; 108] = 8%nat /\ Sorted lt [1; 2; 3; 4; 5]%nat /\ (forall e, In e [1; 2; 3; 4; 5]%nat -> (e < 8)%nat) /\ length [0; 1; 2; 3; 4; 5; 6; 7] = (5 + 3)%nat.
Proof. split; [reflexivity|]. split; [repeat constructor|]. split; [|reflexivity]. intros e [<-|[<-|[<-|[<-|[<-|[]]]]]]; lia. Qed.

(** C36. Two excluded indices in decreasing order: whatever the vector, the value that stood at i + 1 comes back at i and the fixed value of i lands at i + 1, or it stops. *)
Theorem C36_unsorted_refuted fixed N_K v i j : length fixed = 8%nat -> (3 <= N_K)%nat -> length v = (5 + N_K)%nat -> (j < i < 8)%nat ->
  exists p, np_delete v [Z.of_nat i; Z.of_nat j] = Ok p /\
  ((i + 2 <= length v)%nat -> exists w, params_complete fixed [Z.of_nat i; Z.of_nat j] N_K p = Ok w /\ length w = length v /\
     nth i w 0 = nth (S i) v 0 /\ nth (S i) w 0 = nth i fixed 0) /\
  ((length v < i + 2)%nat -> params_complete fixed [Z.of_nat i; Z.of_nat j] N_K p = Err IndexError).
Proof. exact (unsorted_two fixed N_K v i j). Qed.
Print Assumptions C36_unsorted_refuted.
(** An index given twice: one entry is removed, two are put back. *)
Theorem C36_repeated_refuted fixed N_K v i : length fixed = 8%nat -> (3 <= N_K)%nat -> length v = (5 + N_K)%nat -> (i < 8)%nat ->
  exists p, np_delete v [Z.of_nat i; Z.of_nat i] = Ok p /\
  exists w, params_complete fixed [Z.of_nat i; Z.of_nat i] N_K p = Ok w /\ length w = S (length v).
Proof. exact (repeated_one fixed N_K v i). Qed.
Print Assumptions C36_repeated_refuted.
(** The index of a higher Zernike coefficient: it is removed and not put back, and the wavefront of what remains cannot be computed. *)
Theorem C36_high_index_refuted fixed N_K v i n : length fixed = 8%nat -> (2 * N_K = (n + 1) * (n + 2))%nat -> length v = (5 + N_K)%nat -> (8 <= i < length v)%nat ->
  exists p, np_delete v [Z.of_nat i] = Ok p /\ params_complete fixed [Z.of_nat i] N_K p = Ok p /\ S (length p) = length v /\ wavefront (skipn 5 p) = Err IndexError.
Proof. exact (high_one fixed N_K v i n). Qed.
Print Assumptions C36_high_index_refuted.
Example C36_nonvacuous : length [101; 102; 103; 104; 105; 106; 107; 108] = 8%nat /\ (2 * 6 = (2 + 1) * (2 + 2))%nat /\ length (repeat 1 11) = (5 + 6)%nat /\ (8 <= 10 < 11)%nat /\
  exists w, params_complete [101; 102; 103; 104; 105; 106; 107; 108] [2; 1]%Z 3 [0; 3; 4; 5; 6; 7] = Ok w /\ w <> [0; 102; 103; 3; 4; 5; 6; 7].
Proof. split; [reflexivity|]. split; [reflexivity|]. split; [reflexivity|]. split; [lia|]. eexists; split; [reflexivity|]. cbn. intros E. injection E. intros. lra. Qed.

(** C37. *)
Theorem C37_unchanged fixed excluded N_K v : length fixed = 8%nat -> length v = (5 + N_K)%nat -> params_complete fixed excluded N_K v = Ok v.
Proof. exact (complete_unchanged fixed excluded N_K v). Qed.
Print Assumptions C37_unchanged.
Theorem C37_bad_config fixed excluded N_K v : length fixed <> 8%nat -> params_complete fixed excluded N_K v = Err ValueError.
Proof. exact (complete_bad_fixed fixed excluded N_K v). Qed.
Print Assumptions C37_bad_config.
Theorem C37_residual illum tel fixed excluded N_K v beam u_data v_data d_z wavel N bf : length fixed = 8%nat -> length v = (5 + N_K)%nat ->
  residual illum tel fixed excluded N_K v beam u_data v_data d_z wavel N bf = residual_true illum tel v beam u_data v_data d_z wavel N bf.
Proof. exact (residual_complete illum tel fixed excluded N_K v beam u_data v_data d_z wavel N bf). Qed.
Print Assumptions C37_residual.
(** On a shortened vector it is residual_true of the vector with the fixed values put back. *)
Theorem C37_residual_excluded illum tel fixed ex N_K v beam u_data v_data d_z wavel N bf : length fixed = 8%nat -> Sorted lt ex ->
  (forall e, In e ex -> (e < 8)%nat) -> (3 <= N_K)%nat -> length v = (5 + N_K)%nat ->
  (forall e, In e ex -> nth e v 0 = nth e fixed 0) ->
  exists p, np_delete v (map Z.of_nat ex) = Ok p /\
  residual illum tel fixed (map Z.of_nat ex) N_K p beam u_data v_data d_z wavel N bf = residual_true illum tel v beam u_data v_data d_z wavel N bf.
Proof. exact (residual_shortened illum tel fixed ex N_K v beam u_data v_data d_z wavel N bf). Qed.
Print Assumptions C37_residual_excluded.
Example C37_nonvacuous : length [101; 102; 103; 104; 105; 106; 107; 108] = 8%nat /\ length [0; 1; 2; 3; 4; 5; 6; 7] = (5 + 3)%nat /\ Sorted lt [1]%nat /\ (forall e, In e [1]%nat -> nth e [0; 102] 0 = nth e [101; 102; 103; 104; 105; 106; 107; 108] 0).
Proof. repeat split; try reflexivity; [repeat constructor|]. intros e [<-|[]]. reflexivity. Qed.

(** C60. interp=False never returns; on valid input it is a ValueError. *)
Theorem C60_nointerp_refuted illum tel params beam d_z wavel N bf : residual_true_nointerp illum tel params beam d_z wavel N bf <> Ok tt.
Proof. exact (nointerp_fails illum tel params beam d_z wavel N bf). Qed.
Print Assumptions C60_nointerp_refuted.
Theorem C60_nointerp_valueerror illum tel params n Ea M0 M1 M2 z0 z1 z2 wavel N bf : (2 <= N)%nat ->
  (2 * (length params - 5) = (n + 1) * (n + 2))%nat -> illum (firstn 5 params) (tel_pr tel) = Ok Ea ->
  (forall M, In M [M0; M1; M2] -> length M = N /\ ncols M = N) ->
  residual_true_nointerp illum tel params (Cube [M0; M1; M2]) [z0; z1; z2] wavel N bf = Err ValueError.
Proof. exact (nointerp_valueerror illum tel params n Ea M0 M1 M2 z0 z1 z2 wavel N bf). Qed.
Print Assumptions C60_nointerp_valueerror.
Example C60_nonvacuous : (2 * (length ([1; -14; 2; 0; 0; 1; 2; 3]%R) - 5) = (1 + 1) * (1 + 2))%nat /\
  (exists Ea, illum_parabolic (firstn 5 [1; -14; 2; 0; 0; 1; 2; 3]) 50 = Ok Ea) /\
  let M := [[Fin 1; Fin 2]; [Fin 3; Fin 4]] in length M = 2%nat /\ ncols M = 2%nat.
Proof. split; [reflexivity|]. split; [eexists; reflexivity|]. split; reflexivity. Qed.
