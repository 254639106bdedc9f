(** Property theorems C13-C18, C21, C22: pyoof.math_functions, pyoof.aperture.e_rs. *)
From Coq Require Import Permutation.
From Verif Require Import PyBase PyLib Sums Num MMath MAperture SMath SFloat PPolar PNorm PRms PRms2 PSnr POrder64.
Open Scope R_scope.

(** C13. For every input array, NaN and infinities included, the result is in [0,1]. *)
Theorem C13_range P Q : norm_all P = Ok Q -> length Q = length P /\ forall q, In q Q -> 0 <= q <= 1.
Proof. exact (norm_range P Q). Qed.
Print Assumptions C13_range.
(** Finite and not constant: affine, minimum to 0, maximum to 1. *)
Theorem C13_onto v a b : In a v -> In b v -> a < b -> exists mn mx, In mn v /\ In mx v /\ mn < mx /\
  (forall x, In x v -> mn <= x <= mx) /\ norm_all (map Fin v) = Ok (map (fun x => (x - mn) / (mx - mn)) v).
Proof. exact (norm_onto v a b). Qed.
Print Assumptions C13_onto.
Theorem C13_constant v c : v <> [] -> (forall x, In x v -> x = c) -> norm_all (map Fin v) = Ok (map (fun _ => 0) v).
Proof. exact (norm_constant v c). Qed.
Print Assumptions C13_constant.
Theorem C13_nonfinite P : (exists p, In p P /\ ~ finite p) -> norm_all P = Ok (map (fun _ => 0) P).
Proof. exact (norm_nonfinite P). Qed.
Print Assumptions C13_nonfinite.
Theorem C13_empty : norm_all [] = Err ValueError.
Proof. exact norm_empty. Qed.
Print Assumptions C13_empty.
Theorem C13_axis1 P : norm_rows P = mapM norm_all P.
Proof. exact (norm_rows_eq P). Qed.
Print Assumptions C13_axis1.
Theorem C13_axis0 P m Q j : rect m P -> norm_cols P = Ok Q -> (j < m)%nat ->
  rect m Q /\ length Q = length P /\ norm_all (col NaN j P) = Ok (col 0 j Q).
Proof. exact (norm_cols_cols P m Q j). Qed.
Print Assumptions C13_axis0.
(** The same with every operation rounded to binary64. *)
Theorem C13_binary64 mn mx p q : mn <= p <= q -> q <= mx -> fl (mx - mn) <> 0 ->
  0 <= norm64 mn mx p <= norm64 mn mx q /\ norm64 mn mx q <= 1 /\ norm64 mn mx mn = 0 /\ norm64 mn mx mx = 1.
Proof. exact (norm64_range mn mx p q). Qed.
Print Assumptions C13_binary64.
Example C13_nonvacuous : In 1 [1; 3; 2] /\ In 3 [1; 3; 2] /\ 1 < 3 /\ (exists p, In p [Fin 1; NaN] /\ ~ finite p)
  /\ rect 2 [[Fin 1; Fin 2]; [Fin 3; Fin 4]] /\ (exists Q, norm_cols [[Fin 1; Fin 2]; [Fin 3; Fin 4]] = Ok Q) /\ fl (1 - 0) <> 0.
Proof.
  split; [left; reflexivity|]. split; [right; left; reflexivity|]. split; [lra|].
  split; [exists NaN; split; [right; left; reflexivity|exact (fun H => H)]|].
  split; [intros row [<-|[<-|[]]]; reflexivity|]. split; [eexists; reflexivity|].
  replace (1 - 0) with 1 by ring. rewrite fl_1. lra.
Qed.

(** C14. *)
Theorem C14_gain_offset g o P : 0 < g -> norm_all (map (affine g o) P) = norm_all P.
Proof. exact (norm_affine g o P). Qed.
Print Assumptions C14_gain_offset.
Theorem C14_idempotent P Q : norm_all P = Ok Q -> norm_all (map Fin Q) = Ok Q.
Proof. exact (norm_idempotent P Q). Qed.
Print Assumptions C14_idempotent.
Example C14_nonvacuous : 0 < 2 /\ (exists Q, norm_all [Fin 1; Fin 3] = Ok Q) /\ map (affine 2 1) [Fin 1; Fin 3] = [Fin 3; Fin 7].
Proof. split; [lra|]. split; [eexists; reflexivity|]. cbn. repeat f_equal; ring. Qed.

(** C15. *)
Theorem C15_right_inverse x y : let '(rho, theta) := cart2pol x y in
  rho * cos theta = x /\ rho * sin theta = y /\ 0 <= rho /\ - PI < theta <= PI.
Proof. exact (conj (cart2pol_cos x y) (conj (cart2pol_sin x y) (conj (sqrt_pos _) (arctan2_range x y)))). Qed.
Print Assumptions C15_right_inverse.
Theorem C15_left_inverse rho t : 0 < rho -> - PI < t <= PI -> cart2pol (rho * cos t) (rho * sin t) = (rho, t).
Proof. exact (cart2pol_inverse rho t). Qed.
Print Assumptions C15_left_inverse.
Example C15_nonvacuous : 0 < 2 /\ - PI < 3 <= PI.
Proof. pose proof PI2_3_2. lra. Qed.

(** C16. *)
Theorem C16_rms m : concat m <> [] -> exists r, rms_plain (map (map Fin) m) = Fin r /\ 0 <= r /\
  r ^ 2 * INR (length (concat m)) = py_sum (map (fun x => x ^ 2) (concat m)) /\
  (r = 0 <-> forall x, In x (concat m) -> x = 0) /\
  (forall B, 0 <= B -> (forall x, In x (concat m) -> Rabs x <= B) -> r <= B) /\
  (forall c, rms_plain (map (map Fin) (map (map (Rmult c)) m)) = Fin (Rabs c * r)).
Proof. exact (rms_api m). Qed.
Print Assumptions C16_rms.
Theorem C16_permutation m m' : Permutation (concat m) (concat m') -> rms_plain m = rms_plain m'.
Proof. exact (rms_perm m m'). Qed.
Print Assumptions C16_permutation.
(** NaN entries add nothing to the sum but count in the divisor ... *)
Theorem C16_nan_counted m : concat m <> [] -> no_inf (concat m) ->
  rms_plain m = Fin (sqrt (py_sum (map (fun x => x ^ 2) (vals (concat m))) / INR (length (concat m)))).
Proof. exact (rms_with_nan m). Qed.
Print Assumptions C16_nan_counted.
(** ... so the value is not the rms of the valid entries. *)
Theorem C16_mean_of_valid_refuted : exists m, vals (concat m) <> [] /\ no_inf (concat m) /\
  rms_plain m <> Fin (sqrt (py_sum (map (fun x => x ^ 2) (vals (concat m))) / INR (length (vals (concat m))))).
Proof. exact rms_nan_not_mean. Qed.
Print Assumptions C16_mean_of_valid_refuted.
Example C16_nonvacuous : concat [[1; 2]; [3; 4]] <> [] /\ Permutation (concat [[Fin 1; NaN]]) (concat [[NaN]; [Fin 1]])
  /\ no_inf (concat [[Fin 1; NaN]]).
Proof. split; [discriminate|]. split; [apply perm_swap|]. intros p [<-|[<-|[]]]; split; discriminate. Qed.

(** C17. Mean over the pixels of the disk that are not NaN. *)
Theorem C17_value n (a : nat -> nat -> num) : (forall i j, (i < n)%nat -> (j < n)%nat -> in_disk n i j -> a j i <> PInf /\ a j i <> NInf) ->
  let over f := Rsum n (fun j => Rsum n (fun i => if diskb n i j then match a j i with Fin x => f x | _ => 0 end else 0)) in
  exists P', rms_circ (grid n a) = Ok (if Req_EM_T (over (fun _ => 1)) 0 then NaN else Fin (sqrt (over (fun x => x ^ 2) / over (fun _ => 1))), P').
Proof. exact (rms_circ_num n a). Qed.
Print Assumptions C17_value.
Theorem C17_outside_irrelevant n P Q : square n P -> square n Q ->
  (forall i j, (i < n)%nat -> (j < n)%nat -> in_disk n i j -> nth i (nth j P []) NaN = nth i (nth j Q []) NaN) ->
  rms_circ P = rms_circ Q.
Proof. exact (rms_circ_outside n P Q). Qed.
Print Assumptions C17_outside_irrelevant.
(** The caller's array afterwards. *)
Theorem C17_overwrites_argument n P r P' : square n P -> rms_circ P = Ok (r, P') -> square n P' /\
  forall i j, (i < n)%nat -> (j < n)%nat ->
   (in_disk n i j -> nth i (nth j P' []) NaN = nth i (nth j P []) NaN) /\ (~ in_disk n i j -> nth i (nth j P' []) NaN = NaN).
Proof. exact (rms_circ_pixels n P r P'). Qed.
Print Assumptions C17_overwrites_argument.
Theorem C17_second_call n P r P' : square n P -> rms_circ P = Ok (r, P') -> rms_circ P' = Ok (r, P').
Proof. exact (rms_circ_second n P r P'). Qed.
Print Assumptions C17_second_call.
Theorem C17_not_square P : length P <> ncols P -> rms_circ P = Err IndexError.
Proof. exact (rms_circ_not_square P). Qed.
Print Assumptions C17_not_square.
Example C17_nonvacuous : square 3 (grid 3 (fun j i => Fin (INR (i + j)))) /\ in_disk 3 1 1 /\ ~ in_disk 3 0 0 /\ diskb 3 1 2 = true
  /\ length [[Fin 1; Fin 2]] <> ncols [[Fin 1; Fin 2]]
  /\ (forall i j, (if Nat.eqb i 1 then NaN else Fin (INR j)) <> PInf /\ (if Nat.eqb i 1 then NaN else Fin (INR j)) <> NInf).
Proof.
  split; [apply grid_square|]. unfold in_disk, diskb. rewrite !linspace_nth by lia.
  split; [cbn; lra|]. split; [cbn; lra|]. split; [|split; [cbn; lia|intros i j; destruct (Nat.eqb i 1); split; discriminate]].
  destruct (Rle_dec _ 1) as [|N]; [reflexivity|]. exfalso; apply N. cbn; lra.
Qed.

(** C18. *)
Theorem C18_ruze m : concat m <> [] -> exists e r, e_rs_plain (map (map Fin) m) = Fin e /\ rms_plain (map (map Fin) m) = Fin r /\
  e = exp (- r ^ 2) /\ 0 < e <= 1 /\ (e = 1 <-> forall x, In x (concat m) -> x = 0) /\
  (forall c e', 1 < Rabs c -> e <> 1 -> e_rs_plain (map (map Fin) (map (map (Rmult c)) m)) = Fin e' -> e' < e).
Proof. exact (e_rs_api m). Qed.
Print Assumptions C18_ruze.
(** With circ=True: minus the mean square over the disk; the caller's map is overwritten exactly as by rms. *)
Theorem C18_circ n (a : nat -> nat -> num) : (forall i j, (i < n)%nat -> (j < n)%nat -> in_disk n i j -> a j i <> PInf /\ a j i <> NInf) ->
  let over f := Rsum n (fun j => Rsum n (fun i => if diskb n i j then match a j i with Fin x => f x | _ => 0 end else 0)) in
  exists r P', rms_circ (grid n a) = Ok (r, P') /\
    e_rs_circ (grid n a) = Ok (if Req_EM_T (over (fun _ => 1)) 0 then NaN else Fin (exp (- (over (fun x => x ^ 2) / over (fun _ => 1)))), P').
Proof. exact (e_rs_circ_num n a). Qed.
Print Assumptions C18_circ.
Example C18_nonvacuous : concat [[1; 2]; [3; 4]] <> [] /\ 1 < Rabs (-2).
Proof. split; [discriminate|]. rewrite Rabs_left; lra. Qed.

(** C21. *)
Theorem C21_line x1 y1 x2 y2 : x1 <> x2 -> exists a b, forall x,
  line_equation (Fin x1, Fin y1) (Fin x2, Fin y2) (Fin x) = Fin (a * x + b) /\ a * x1 + b = y1 /\ a * x2 + b = y2.
Proof. exact (line_through x1 y1 x2 y2). Qed.
Print Assumptions C21_line.
Theorem C21_swap x1 y1 x2 y2 x : x1 <> x2 ->
  line_equation (Fin x1, Fin y1) (Fin x2, Fin y2) (Fin x) = line_equation (Fin x2, Fin y2) (Fin x1, Fin y1) (Fin x).
Proof. exact (line_swap x1 y1 x2 y2 x). Qed.
Print Assumptions C21_swap.
Theorem C21_vertical x1 y1 y2 x : ~ finite (line_equation (Fin x1, Fin y1) (Fin x1, Fin y2) (Fin x)).
Proof. exact (line_vertical x1 y1 y2 x). Qed.
Print Assumptions C21_vertical.
Example C21_nonvacuous : 1 <> 2. Proof. lra. Qed.

(** C22. *)
Theorem C22_gain g beam u v centre radius : 0 < g ->
  snr_grid (map (map (nmul (Fin g))) beam) u v centre radius = snr_grid beam u v centre radius.
Proof. exact (fun H => snr_gain g H beam u v centre radius). Qed.
Print Assumptions C22_gain.
(** Peak over the standard deviation of the pixels of the noise disk. *)
Theorem C22_peak_over_std n0 n1 (a : nat -> nat -> R) (u v : nat -> R) centre radius peak :
  (exists j i, (j < n0)%nat /\ (i < n1)%nat /\ a j i = peak) -> (forall j i, (j < n0)%nat -> (i < n1)%nat -> a j i <= peak) ->
  noise_pixels n0 n1 a u v centre radius <> [] ->
  snr_grid (map (fun j => map (fun i => Fin (a j i)) (seq 0 n1)) (seq 0 n0)) (map u (seq 0 n1)) (map v (seq 0 n0)) centre radius
  = ndiv (Fin peak) (Fin (stdR (noise_pixels n0 n1 a u v centre radius))).
Proof. exact (snr_value n0 n1 a u v centre radius peak). Qed.
Print Assumptions C22_peak_over_std.
(** Scattered maps: for any interpolator that is homogeneous in the values. *)
Theorem C22_gain_scattered g griddata beam u v centre radius : 0 < g ->
  (forall pu pv vals gu gv, griddata pu pv (map (nmul (Fin g)) vals) gu gv = map (map (nmul (Fin g))) (griddata pu pv vals gu gv)) ->
  snr_scatter griddata (map (nmul (Fin g)) beam) u v centre radius = snr_scatter griddata beam u v centre radius.
Proof. exact (fun H => snr_scatter_gain g H griddata beam u v centre radius). Qed.
Print Assumptions C22_gain_scattered.
Example C22_nonvacuous : noise_pixels 2 2 (fun j i => INR (i + j)) INR INR 0 1 <> []
  /\ (exists j i, (j < 2)%nat /\ (i < 2)%nat /\ INR (i + j) = 2).
Proof.
  split; [|exists 1%nat, 1%nat; repeat split; try lia; cbn; lra].
  unfold noise_pixels. cbn. assert (E : Rltb ((0 - 0) * ((0 - 0) * 1) + (0 - 0) * ((0 - 0) * 1)) (1 * (1 * 1)) = true) by (apply Rltb_true; lra).
  rewrite E. discriminate.
Qed.
