(** Property theorems C10-C12: pyoof.aperture.phase. *)
From Verif Require Import PyBase PyLib Num MZernike SZernike MMath MAperture PWave PPhase PPhase2.
Open Scope R_scope.

(** C10. Every pixel: 0 outside the dish, 2 pi times the wavefront inside, for
    any polar representation of the pixel. *)
Theorem C10_pixels K pr piston tilt resolution n : (2 * length K = (n + 1) * (n + 2))%nat -> (tilt = false -> 1 <= n)%nat -> 0 < pr ->
  exists phi, phase K pr piston tilt resolution = Ok (linspace (- pr) pr resolution, linspace (- pr) pr resolution, phi)
   /\ length phi = resolution /\
   forall j, (j < resolution)%nat -> length (nth j phi []) = resolution /\
   forall i, (i < resolution)%nat ->
     let x := nth i (linspace (- pr) pr resolution) 0 in
     let y := nth j (linspace (- pr) pr resolution) 0 in
     (pr ^ 2 < x ^ 2 + y ^ 2 -> nth i (nth j phi []) 0 = 0) /\
     (x ^ 2 + y ^ 2 <= pr ^ 2 -> forall rho theta, 0 <= rho -> x = pr * (rho * cos theta) -> y = pr * (rho * sin theta) ->
        nth i (nth j phi []) 0 = 2 * PI * zernike_series n (kept piston tilt (coeff_of K)) rho theta).
Proof. exact (phase_ok' K pr piston tilt resolution n). Qed.
Print Assumptions C10_pixels.
(** The polar representation quantified over always exists. *)
Theorem C10_polar_exists pr x y : 0 < pr ->
  exists rho theta, 0 <= rho /\ x = pr * (rho * cos theta) /\ y = pr * (rho * sin theta).
Proof. exact (polar_exists pr x y). Qed.
Print Assumptions C10_polar_exists.
(** The caller's arrays are unchanged, and the result depends on the values of
    the array passed as K_coeff only. *)
Theorem C10_arguments_unchanged h p pr piston tilt resolution :
  let '(h', r) := phase_heap h p pr piston tilt resolution in
  firstn (length h) h' = h /\ r = phase (nth p h []) pr piston tilt resolution.
Proof. exact (phase_frame h p pr piston tilt resolution). Qed.
Print Assumptions C10_arguments_unchanged.
(** Too few coefficients for the switches is an IndexError. *)
Theorem C10_short_arrays K pr piston tilt resolution :
  (piston = false /\ K = []) \/ (tilt = false /\ (length K < 3)%nat) ->
  phase K pr piston tilt resolution = Err IndexError.
Proof. exact (phase_index_error K pr piston tilt resolution). Qed.
Print Assumptions C10_short_arrays.
Example C10_nonvacuous : (2 * length [1; 2; 3; 4; 5; 6] = (2 + 1) * (2 + 2))%nat /\ (1 <= 2)%nat /\ 0 < 50
  /\ 50 ^ 2 < (nth 0 (linspace (- (50)) 50 3) 0) ^ 2 + (nth 0 (linspace (- (50)) 50 3) 0) ^ 2
  /\ (nth 1 (linspace (- (50)) 50 3) 0) ^ 2 + (nth 2 (linspace (- (50)) 50 3) 0) ^ 2 <= 50 ^ 2.
Proof. repeat split; try lia; try lra; rewrite !linspace_nth by lia; cbn; lra. Qed.

(** C11. *)
Theorem C11_no_piston K K' pr tilt resolution : length K = length K' -> (forall k, k <> 0%nat -> nth k K 0 = nth k K' 0) ->
  phase K pr false tilt resolution = phase K' pr false tilt resolution.
Proof. exact (phase_no_piston K K' pr tilt resolution). Qed.
Print Assumptions C11_no_piston.
Theorem C11_no_tilt K K' pr piston resolution : length K = length K' ->
  (forall k, k <> 1%nat -> k <> 2%nat -> nth k K 0 = nth k K' 0) ->
  phase K pr piston false resolution = phase K' pr piston false resolution.
Proof. exact (phase_no_tilt K K' pr piston resolution). Qed.
Print Assumptions C11_no_tilt.
Theorem C11_tilt_is_plane K pr piston resolution n : (2 * length K = (n + 1) * (n + 2))%nat -> (1 <= n)%nat -> 0 < pr ->
  exists x y phi phi', phase K pr piston true resolution = Ok (x, y, phi) /\ phase K pr piston false resolution = Ok (x, y, phi') /\
  forall i j, (i < resolution)%nat -> (j < resolution)%nat ->
    nth i x 0 ^ 2 + nth j y 0 ^ 2 <= pr ^ 2 ->
    nth i (nth j phi []) 0 = nth i (nth j phi' []) 0 + 2 * PI * (nth 1 K 0 * nth j y 0 + nth 2 K 0 * nth i x 0) / pr.
Proof. exact (phase_tilt_plane K pr piston resolution n). Qed.
Print Assumptions C11_tilt_is_plane.
Theorem C11_piston_is_constant K pr tilt resolution n : (2 * length K = (n + 1) * (n + 2))%nat -> (1 <= n)%nat -> 0 < pr ->
  exists x y phi phi', phase K pr true tilt resolution = Ok (x, y, phi) /\ phase K pr false tilt resolution = Ok (x, y, phi') /\
  forall i j, (i < resolution)%nat -> (j < resolution)%nat ->
    nth i x 0 ^ 2 + nth j y 0 ^ 2 <= pr ^ 2 ->
    nth i (nth j phi []) 0 = nth i (nth j phi' []) 0 + 2 * PI * nth 0 K 0.
Proof. exact (phase_piston_shift K pr tilt resolution n). Qed.
Print Assumptions C11_piston_is_constant.
Example C11_nonvacuous : length [1; 2; 3] = length [9; 2; 3] /\ (forall k, k <> 0%nat -> nth k [1; 2; 3] 0 = nth k [9; 2; 3] 0).
Proof. split; [reflexivity|]. intros [|k] H; [lia|reflexivity]. Qed.

(** C12. *)
Theorem C12_dish_size_independent K pr c piston tilt resolution : 0 < c -> 0 < pr ->
  phase K (c * pr) piston tilt resolution =
  bind (phase K pr piston tilt resolution) (fun '(x, y, phi) => Ok (map (Rmult c) x, map (Rmult c) y, phi)).
Proof. exact (phase_scale K pr c piston tilt resolution). Qed.
Print Assumptions C12_dish_size_independent.
Theorem C12_linear K K' pr piston tilt resolution a b x y phi x' y' phi' : length K' = length K ->
  phase K pr piston tilt resolution = Ok (x, y, phi) -> phase K' pr piston tilt resolution = Ok (x', y', phi') ->
  exists psi, phase (map2 (fun k k' => a * k + b * k') K K') pr piston tilt resolution = Ok (x, y, psi) /\
  length psi = resolution /\ forall i j, (i < resolution)%nat -> (j < resolution)%nat ->
    nth i (nth j psi []) 0 = a * nth i (nth j phi []) 0 + b * nth i (nth j phi' []) 0.
Proof. exact (phase_linear K K' pr piston tilt resolution a b x y phi x' y' phi'). Qed.
Print Assumptions C12_linear.
Example C12_nonvacuous : exists phi, phase [1; 2; 3] 50 true true 5 = Ok (linspace (- (50)) 50 5, linspace (- (50)) 50 5, phi).
Proof. destruct (phase_ok [1; 2; 3] 50 true true 5 1 eq_refl ltac:(lia) ltac:(lra)) as (phi & E & _). exists phi; exact E. Qed.
