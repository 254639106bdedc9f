(** Property theorems C89: the radiation pattern is the far field of the aperture, and
    what residual_true compares with the data. *)
From Coq Require Import List ZArith Lia Lra.
From Verif Require Import PyBase PyLib Num MMath MAperture MTel MRad SZernike SRad SCore MCore PResid SPlot PFar.
From Coquelicot Require Import Complex.
Import ListNotations.
Open Scope R_scope.

(** C89. Sample (r, c) of radiation_pattern is, up to a phase factor, the far field of the aperture in the
    direction (u_c, v_r) of the returned axes. *)
Theorem C89_far_field illum tel I K d_z wavel N bf n Ea : 0 < wavel -> 0 < tel_pr tel -> 0 < bf -> (2 <= N)%nat ->
  (2 * length K = (n + 1) * (n + 2))%nat -> illum I (tel_pr tel) = Ok Ea ->
  exists u v F, radiation_pattern illum tel I K d_z wavel N bf = Ok (u, v, F) /\ length u = N /\ length v = N /\
  forall r c, (r < N)%nat -> (c < N)%nat ->
    let G := far_field (aperture_field tel Ea n K d_z wavel) (tel_pr tel * bf) N wavel (nth c u 0) (nth r v 0) in
    at2 F r c = Cmult (cis (- (2 * PI * (tel_pr tel * bf * (nth c u 0 + nth r v 0) / wavel)))) G /\ Cmod (at2 F r c) = Cmod G.
Proof. exact (far_field_api illum tel I K d_z wavel N bf n Ea). Qed.
Print Assumptions C89_far_field.

(** The residual: for each of the three maps the data scaled to [0, 1] minus the modelled map scaled to [0, 1];
    the modelled map is the far-field power at that map's radial offset, interpolated bilinearly in (u, v) at the
    coordinates of that map's data points. *)
Theorem C89_residual illum tel params b0 b1 b2 x0 x1 x2 y0 y1 y2 z0 z1 z2 wavel N bf n Ea r : 0 < wavel -> 0 < tel_pr tel -> 0 < bf ->
  (2 * (length params - 5) = (n + 1) * (n + 2))%nat -> illum (firstn 5 params) (tel_pr tel) = Ok Ea ->
  length x0 = length b0 -> length x1 = length b1 -> length x2 = length b2 ->
  residual_true illum tel params [b0; b1; b2] [x0; x1; x2] [y0; y1; y2] [z0; z1; z2] wavel N bf = Ok r ->
  let modelled z x y m := length m = length x /\ length y = length x /\
     Forall2 (fun xy val => interpolates (fun a b => Cmod (far_field (aperture_field tel Ea n (skipn 5 params) z wavel) (tel_pr tel * bf) N wavel a b) ^ 2) (grid_step (tel_pr tel) wavel N bf) N (fst xy) (snd xy) val)
       (combine x y) m in
  exists m0 m1 m2 d0 d1 d2 p0 p1 p2, modelled z0 x0 y0 m0 /\ modelled z1 x1 y1 m1 /\ modelled z2 x2 y2 m2 /\
    normalised b0 (map Fin d0) /\ normalised b1 (map Fin d1) /\ normalised b2 (map Fin d2) /\
    normalised (map Fin m0) (map Fin p0) /\ normalised (map Fin m1) (map Fin p1) /\ normalised (map Fin m2) (map Fin p2) /\
    r = map2 Rminus d0 p0 ++ map2 Rminus d1 p1 ++ map2 Rminus d2 p2.
Proof. exact (residual_far illum tel params b0 b1 b2 x0 x1 x2 y0 y1 y2 z0 z1 z2 wavel N bf n Ea r). Qed.
Print Assumptions C89_residual.

(** The interpolated value is unique, and at a sample it is the sample. *)
Theorem C89_interpolation P h N x y a b : h <> 0 -> interpolates P h N x y a -> interpolates P h N x y b -> a = b.
Proof. exact (interpolates_unique P h N x y a b). Qed.
Print Assumptions C89_interpolation.

Definition tel89 : telgeo := {| block_dist := block_manual 50 3 1 20; opd_func := opd_manual 30 300; tel_pr := 50 |}.
Example C89_nonvacuous : let h := grid_step 50 (1 / 100) 256 5 in exists r,
  residual_true illum_parabolic tel89 [1; -14; 2; 0; 0; 1; 2; 3] [[Fin 1; Fin 3]; [Fin 2; NaN]; [Fin 4; Fin 1]]
    [[0; h / 3]; [0; h]; [h; - h]] [[h / 2; 0]; [0; h]; [0; 0]] [-1; 0; 1] (1 / 100) 256 5 = Ok r /\ length r = 6%nat.
Proof.
  intros h. assert (HI : exists Ea, illum_parabolic [1; -14; 2; 0; 0] (tel_pr tel89) = Ok Ea) by (eexists; reflexivity). destruct HI as [Ea HI].
  assert (Hh : h = 255 / 12800000) by (unfold h, grid_step; rewrite (INR_IZR_INZ 256); cbn [Z.of_nat Pos.of_succ_nat Pos.succ]; lra).
  refine (proj1 (residual_grid illum_parabolic tel89 [1; -14; 2; 0; 0; 1; 2; 3] 1 _ _ _ _ _ _ _ _ _ _ _ _ (1 / 100) 256 5 Ea _ _ _ _ _ _ _ _ _ _ _ _ _ _ _) _); try reflexivity; try lia; try (cbn; lra); try discriminate; try exact HI.
  intros x Hx. change (grid_step (tel_pr tel89) (1 / 100) 256 5) with h. unfold in_grid. change (256 / 2)%nat with 128%nat. change (256 - 1)%nat with 255%nat. rewrite !INR_IZR_INZ. cbn [Z.of_nat Pos.of_succ_nat Pos.succ].
  cbn [app In] in Hx. repeat (destruct Hx as [<-|Hx]; [rewrite Hh; lra|]). destruct Hx.
Qed.
