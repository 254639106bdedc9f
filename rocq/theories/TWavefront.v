(** Property theorems C08, C09 and the second half of C03: pyoof.aperture.wavefront. *)
From Verif Require Import PyBase PyLib Num MZernike SZernike MMath MAperture SFloat PEnum PWave PPhase PPhase2 PSym POrder64 PParseval.
Open Scope R_scope.

(** C08. Accepted sizes are exactly the triangular numbers. *)
Theorem C08_triangular_accepted K n : (2 * length K = (n + 1) * (n + 2))%nat ->
  order_of_size (length K) = Z.of_nat n /\
  exists W, wavefront K = Ok W /\ forall rho t, W rho t = zernike_series n (coeff_of K) rho t.
Proof. exact (fun H => conj (order_of_triangular n (length K) H) (wavefront_series K n H)). Qed.
Print Assumptions C08_triangular_accepted.
Theorem C08_other_sizes_rejected K : K <> [] -> (forall n, 2 * length K <> (n + 1) * (n + 2))%nat ->
  wavefront K = Err IndexError.
Proof. exact (wavefront_bad_api K). Qed.
Print Assumptions C08_other_sizes_rejected.
Theorem C08_empty_rejected : wavefront [] = Err AttributeError.
Proof. exact wavefront_nil. Qed.
Print Assumptions C08_empty_rejected.
(** The binary64 evaluation infers the same order. *)
Theorem C08_order_binary64 size : (8 * Z.of_nat size + 1 < 2 ^ 53)%Z -> order64 size = order_of_size size.
Proof. exact (order64_ok size). Qed.
Print Assumptions C08_order_binary64.
Example C08_nonvacuous : (2 * length [1; 2; 3; 4; 5; 6] = (2 + 1) * (2 + 2))%nat
  /\ [1; 2] <> [] /\ (forall n, 2 * length [1%R; 2%R] <> (n + 1) * (n + 2))%nat /\ (8 * Z.of_nat 66 + 1 < 2 ^ 53)%Z.
Proof.
  split; [reflexivity|]. split; [discriminate|]. split; [|lia].
  intros n; cbn [length]. destruct n as [|[|n]]; lia.
Qed.

(** C09. *)
Theorem C09_linear K K' a b W W' : length K' = length K -> wavefront K = Ok W -> wavefront K' = Ok W' ->
  exists V, wavefront (map2 (fun k k' => a * k + b * k') K K') = Ok V /\ forall rho t, V rho t = a * W rho t + b * W' rho t.
Proof. exact (wavefront_linear K K' a b W W'). Qed.
Print Assumptions C09_linear.
Theorem C09_zero_padding K z n n' : (2 * length K = (n + 1) * (n + 2))%nat -> (2 * (length K + z) = (n' + 1) * (n' + 2))%nat ->
  exists W W', wavefront K = Ok W /\ wavefront (K ++ repeat 0 z) = Ok W' /\ forall rho t, W' rho t = W rho t.
Proof. exact (wavefront_pad K z n n'). Qed.
Print Assumptions C09_zero_padding.
Theorem C09_unit_vector n N i l : (2 * N = (n + 1) * (n + 2))%nat -> (i <= n)%nat -> admissible (Z.of_nat i) l ->
  exists W, wavefront (map (fun k => if Nat.eqb k (coeff_pos i l) then 1 else 0) (seq 0 N)) = Ok W
    /\ forall rho t, W rho t = circle i l rho t.
Proof. exact (wavefront_unit n N i l). Qed.
Print Assumptions C09_unit_vector.
Example C09_nonvacuous : (exists W, wavefront [1; 2; 3] = Ok W)
  /\ (2 * (length [1%R; 2%R; 3%R] + 3) = (2 + 1) * (2 + 2))%nat /\ admissible (Z.of_nat 2) (-2).
Proof.
  split; [destruct (wavefront_series [1; 2; 3] 1 eq_refl) as (W & E & _); exists W; exact E|].
  split; [reflexivity|]. split; [lia|exists 2%Z; lia].
Qed.

(** C03, second half. *)
Theorem C03_wavefront_bounded K W rho t : wavefront K = Ok W -> -1 <= rho <= 1 -> Rabs (W rho t) <= py_sum (map Rabs K).
Proof. exact (wavefront_bound K W rho t). Qed.
Print Assumptions C03_wavefront_bounded.
Theorem C03_phase_bounded K pr piston tilt resolution x y phi : 0 < pr -> phase K pr piston tilt resolution = Ok (x, y, phi) ->
  forall row v, In row phi -> In v row -> Rabs v <= 2 * PI * py_sum (map Rabs K).
Proof. exact (phase_bound K pr piston tilt resolution x y phi). Qed.
Print Assumptions C03_phase_bounded.

(** C73. Averages over the aperture: the mean is the piston coefficient, the mean
    product is a weighted sum over the coefficients, and each coefficient is a projection. *)
Theorem C73_mean K n W : (2 * length K = (n + 1) * (n + 2))%nat -> wavefront K = Ok W -> has_disk_integral W (PI * nth 0 K 0).
Proof. exact (wavefront_mean K n W). Qed.
Print Assumptions C73_mean.
Theorem C73_mean_product K K' n W W' : (2 * length K = (n + 1) * (n + 2))%nat -> length K' = length K -> wavefront K = Ok W -> wavefront K' = Ok W' ->
  has_disk_integral (fun rho t => W rho t * W' rho t) (PI *
   sum_upto n (fun i => sum_upto i (fun k => let l := (2 * Z.of_nat k - Z.of_nat i)%Z in
     coeff_of K i l * coeff_of K' i l * ((if Z.eq_dec l 0 then 2 else 1) / (2 * (INR i + 1)))))).
Proof. exact (wavefront_parseval K K' n W W'). Qed.
Print Assumptions C73_mean_product.
Theorem C73_projection K n W i l g : (2 * length K = (n + 1) * (n + 2))%nat -> wavefront K = Ok W ->
  (i <= n)%nat -> admissible (Z.of_nat i) l -> zernike_U (PyInt (Z.of_nat i)) (PyInt l) = Ok g ->
  has_disk_integral (fun rho t => W rho t * g rho t) (PI * coeff_of K i l * (if Z.eq_dec l 0 then 2 else 1) / (2 * (INR i + 1))).
Proof. exact (wavefront_project K n W i l g). Qed.
Print Assumptions C73_projection.
Example C73_nonvacuous : (exists W, wavefront [1; 2; 3] = Ok W) /\ (2 * length [1%R; 2%R; 3%R] = (1 + 1) * (1 + 2))%nat
  /\ (1 <= 1)%nat /\ admissible (Z.of_nat 1) (-1) /\ exists g, zernike_U (PyInt (Z.of_nat 1)) (PyInt (-1)) = Ok g.
Proof.
  split; [destruct (wavefront_series [1; 2; 3] 1 eq_refl) as (W & E & _); exists W; exact E|].
  split; [reflexivity|]. split; [lia|]. assert (A : admissible (Z.of_nat 1) (-1)) by (split; [lia|exists 1%Z; lia]).
  split; [exact A|]. destruct (PZern2.U_circle 1 (-1) A) as (g & E & _). exists g. exact E.
Qed.
