(** Specification vocabulary for the figures of scripts/create_lookup.py. *)
From Coq Require Import String List ZArith.
From Verif Require Import PyBase Num MMath MAperture MFs MOut MAct MTab MScript SZernike SPlot.
Import ListNotations.
Open Scope R_scope.
Open Scope string_scope.
Open Scope list_scope.

(** The panel of the Zernike coefficient (i, l): a point for every observation used,
    at its elevation and with its coefficient as a phase in radians, the size a
    hundredth of its signal-to-noise ratio; and the curve of the gravity model with the
    three numbers g of that coefficient, from the lowest to the highest elevation. *)
Definition gravity_panel (rows : list tab_row) (Ks : list (list R)) (g : list R) (res i : nat) (l : Z) (p : grav_panel) : Prop :=
  gp_label p = "K(" ^^ decZ (Z.of_nat i) ^^ ", " ^^ decZ l ^^ ")" /\
  length (gp_points p) = length rows /\
  (forall a r, nth_error rows a = Some r ->
     nth_error (gp_points p) a = Some (tr_meanel r, 2 * PI * nth (coeff_pos i l) (nth a Ks []) 0, ndiv (nth 1 (tr_snr r) NaN) (Fin 100))) /\
  (exists lo hi, extent_of (fun t => In t (map tr_meanel rows)) lo hi /\ gp_x p = linspace lo hi res) /\
  length (gp_y p) = res /\
  forall m, (m < res)%nat -> exists v, grav_deformation g (Deg (nth m (gp_x p) 0)) = Ok v /\ nth m (gp_y p) 0 = 2 * PI * v.
