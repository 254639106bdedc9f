(** Specification vocabulary: maps on which a model can be compared with the data, and
    the modelled maps. *)
From Coq Require Import List.
From Verif Require Import PyBase Num MMath MAperture MRad MCore MFs MOut SCore SFit.
Import ListNotations.
Open Scope R_scope.
Open Scope list_scope.

(** Three maps of the same number of points, three offsets, every point on the grid of the
    modelled far field, and a telescope without aperture outside the dish. *)
Definition comparable (a : fit_args) : Prop :=
  0 < fa_wavel a /\ 0 < tel_pr (fa_tel a) /\ 0 < fa_box_factor a /\ (2 <= fa_resolution a)%nat /\
  (forall x y, tel_pr (fa_tel a) ^ 2 < x ^ 2 + y ^ 2 -> block_dist (fa_tel a) x y = 0) /\
  exists m, (0 < m)%nat /\ map (@length num) (fa_beam a) = [m; m; m] /\ map (@length R) (fa_u a) = [m; m; m] /\ map (@length R) (fa_v a) = [m; m; m] /\
    length (fa_d_z a) = 3%nat /\
    forall x, In x (concat (fa_u a) ++ concat (fa_v a)) -> in_grid (grid_step (tel_pr (fa_tel a)) (fa_wavel a) (fa_resolution a) (fa_box_factor a)) (fa_resolution a) x.

(** Map i of the model with the complete parameter vector p, at the points of the data
    (C89 says what its values are). *)
Definition modelled (a : fit_args) (p : list R) (i : nat) : res (list R) :=
  model_row (fa_illum a) (fa_tel a) p (fa_u a) (fa_v a) (fa_d_z a) (fa_wavel a) (fa_resolution a) (fa_box_factor a) i.
(** Each of the three modelled maps has two values that differ by D at least ... *)
Definition contrast (a : fit_args) (p : list R) (D : R) : Prop :=
  forall i, (i < 3)%nat -> exists m s t, modelled a p i = Ok m /\ In s m /\ In t m /\ D <= t - s.
(** ... or is at least not constant. *)
Definition varies (a : fit_args) (p : list R) : Prop :=
  forall i, (i < 3)%nat -> exists m s t, modelled a p i = Ok m /\ In s m /\ In t m /\ s <> t.
