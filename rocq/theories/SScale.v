(** Specification: the same telescope measured with another unit of length. *)
From Coq Require Import Reals List ZArith.
From Verif Require Import PyBase MMath MAperture MFs MOut SOut SFit SCore SBest SRecover.
Import ListNotations.
Open Scope R_scope.

(** tel' is tel with every length multiplied by s. *)
Definition magnified (s : R) (tel tel' : telgeo) : Prop :=
  tel_pr tel' = s * tel_pr tel /\
  forall x y d, block_dist tel' (s * x) (s * y) = block_dist tel x y /\ opd_func tel' (s * x) (s * y) (s * d) = s * opd_func tel x y d.
(** The illumination is that of the magnified dish when its offset is magnified. *)
Definition magnifies (s : R) (illum : list R -> R -> res (R -> R -> R)) (pr : R) : Prop :=
  forall i_amp c_dB q x0 y0, exists Ea Ea', illum [i_amp; c_dB; q; x0; y0] pr = Ok Ea /\ illum [i_amp; c_dB; q; s * x0; s * y0] (s * pr) = Ok Ea' /\
    forall x y, Ea' (s * x) (s * y) = Ea x y.
(** Of the parameters only the offset of the illumination is a length. *)
Definition in_units (s : R) (p : list R) : list R :=
  match p with i_amp :: c_dB :: q :: x0 :: y0 :: K => i_amp :: c_dB :: q :: s * x0 :: s * y0 :: K | _ => p end.
(** The same fit: wavelength, telescope and radial offsets in the other unit, angles and maps as they are. *)
Definition remeasured (s : R) (a a' : fit_args) : Prop :=
  magnified s (fa_tel a) (fa_tel a') /\ fa_illum a' = fa_illum a /\ magnifies s (fa_illum a) (tel_pr (fa_tel a)) /\ fa_wavel a' = s * fa_wavel a /\ fa_d_z a' = map (Rmult s) (fa_d_z a) /\
  fa_resolution a' = fa_resolution a /\ fa_box_factor a' = fa_box_factor a /\ fa_beam a' = fa_beam a /\ fa_u a' = fa_u a /\ fa_v a' = fa_v a.
(** The bounds and the fixed values of the offset in the other unit. *)
Definition config_in_units (s : R) (c c' : config) : Prop :=
  cf_excluded c' = cf_excluded c /\ cf_fixed c' = in_units s (cf_fixed c) /\ cf_bound_min c' = in_units s (cf_bound_min c) /\ cf_bound_max c' = in_units s (cf_bound_max c) /\
  cf_init c' = in_units s (cf_init c).
(** A positive unit, and a dish, a wavelength and a box of positive size. *)
Definition scale_ok (s : R) (a : fit_args) : Prop := 0 < s /\ 0 < tel_pr (fa_tel a) /\ 0 < fa_wavel a /\ 0 < fa_box_factor a.
