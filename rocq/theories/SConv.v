(** Specification: the same observation recorded under another sign or axis convention,
    and the parameters that describe the same telescope under that convention. *)
From Coq Require Import Reals List ZArith.
From Verif Require Import PyBase MMath MAperture MFs MOut SZernike SMirror SOut SFit SCore SBest SRecover.
Import ListNotations.
Open Scope R_scope.

(** The sign of u, the sign of v, which of the two comes first, and the sign of the
    radial offset of the sub-reflector. *)
Inductive convention := Reverse_u | Reverse_v | Exchange_uv | Reverse_dz.

(** Where a point of the aperture plane goes. *)
Definition moved (g : convention) (x y : R) : R * R :=
  match g with Reverse_u => (- x, y) | Reverse_v => (x, - y) | Exchange_uv => (y, x) | Reverse_dz => (- x, - y) end.
(** The coefficients of the wavefront. *)
Definition coeffs_under (g : convention) (c : nat -> Z -> R) (i : nat) (l : Z) : R :=
  match g with
  | Reverse_u => mirrored_x c i l
  | Reverse_v => mirrored_y c i l
  | Exchange_uv => transposed c i l
  | Reverse_dz => (-1) ^ (S i) * c i l
  end.
(** The coefficients c(i, l) of orders 0 to n as an array, (0,0), (1,-1), (1,1), (2,-2), ... *)
Definition listed (n : nat) (c : nat -> Z -> R) : list R :=
  concat (map (fun i => map (fun k => c i (2 * Z.of_nat k - Z.of_nat i)%Z) (seq 0 (S i))) (seq 0 (S n))).
(** The parameters: amplitude, taper and order of the illumination stay, its offset moves. *)
Definition params_under (g : convention) (n : nat) (p : list R) : list R :=
  match p with
  | i_amp :: c_dB :: q :: x0 :: y0 :: K =>
      i_amp :: c_dB :: q :: fst (moved g x0 y0) :: snd (moved g x0 y0) :: listed n (coeffs_under g (coeff_of K))
  | _ => p
  end.

(** The data as recorded under the other convention. *)
Definition u_under (g : convention) (u v : list (list R)) : list (list R) :=
  match g with Reverse_u => map (map Ropp) u | Exchange_uv => v | _ => u end.
Definition v_under (g : convention) (u v : list (list R)) : list (list R) :=
  match g with Reverse_v => map (map Ropp) v | Exchange_uv => u | _ => v end.
Definition dz_under (g : convention) (d_z : list R) : list R :=
  match g with Reverse_dz => map Ropp d_z | _ => d_z end.
(** The coordinates whose sign changes. *)
Definition reversed (g : convention) (u v : list (list R)) : list R :=
  match g with Reverse_u => concat u | Reverse_v => concat v | _ => [] end.
(** The same call of fit_zpoly with the data under the other convention; the name of the
    fit, the directory and all settings may differ. *)
Definition recorded (g : convention) (a a' : fit_args) : Prop :=
  fa_illum a' = fa_illum a /\ fa_tel a' = fa_tel a /\ fa_wavel a' = fa_wavel a /\ fa_resolution a' = fa_resolution a /\ fa_box_factor a' = fa_box_factor a /\
  fa_beam a' = fa_beam a /\ fa_u a' = u_under g (fa_u a) (fa_v a) /\ fa_v a' = v_under g (fa_u a) (fa_v a) /\ fa_d_z a' = dz_under g (fa_d_z a).

(** The telescope looks the same under the other convention. *)
Definition symmetric (g : convention) (tel : telgeo) : Prop :=
  forall x y d, block_dist tel (fst (moved g x y)) (snd (moved g x y)) = block_dist tel x y /\
    match g with
    | Reverse_dz => opd_func tel (fst (moved g x y)) (snd (moved g x y)) (- d) = - opd_func tel x y d
    | _ => opd_func tel (fst (moved g x y)) (snd (moved g x y)) d = opd_func tel x y d
    end.
(** The illumination moves with its offset. *)
Definition moves (g : convention) (illum : list R -> R -> res (R -> R -> R)) (pr : R) : Prop :=
  forall i_amp c_dB q x0 y0, exists Ea Ea', illum [i_amp; c_dB; q; x0; y0] pr = Ok Ea /\
    illum [i_amp; c_dB; q; fst (moved g x0 y0); snd (moved g x0 y0)] pr = Ok Ea' /\
    forall x y, Ea' x y = Ea (fst (moved g x y)) (snd (moved g x y)).
(** The configuration allows the converted vector of every vector it allows. *)
Definition closed_under (g : convention) (c : config) : Prop :=
  forall n p, (1 <= n)%nat -> allowed c n p -> allowed c n (params_under g n p).
(** The configuration treats the two signs of the offsets, the piston and the tilts alike,
    and the two axes alike. *)
Definition even_config (c : config) : Prop :=
  (forall i, (3 <= i < 8)%nat -> nth i (cf_bound_min c) 0 = - nth i (cf_bound_max c) 0 /\ nth i (cf_fixed c) 0 = 0) /\
  nth 3 (cf_bound_max c) 0 = nth 4 (cf_bound_max c) 0 /\ nth 6 (cf_bound_max c) 0 = nth 7 (cf_bound_max c) 0 /\
  (In 3%Z (cf_excluded c) <-> In 4%Z (cf_excluded c)) /\ (In 6%Z (cf_excluded c) <-> In 7%Z (cf_excluded c)).
(** All data points whose sign changes have their mirror image on the grid. *)
Definition mirrored_on_grid (g : convention) (a : fit_args) : Prop :=
  forall x, In x (reversed g (fa_u a) (fa_v a)) ->
    Rabs x <= INR (fa_resolution a - 1 - fa_resolution a / 2) * grid_step (tel_pr (fa_tel a)) (fa_wavel a) (fa_resolution a) (fa_box_factor a).
(** Telescope, illumination and data points allow the change of convention. *)
Definition set_up (g : convention) (a : fit_args) : Prop :=
  0 < fa_wavel a /\ 0 < tel_pr (fa_tel a) /\ 0 < fa_box_factor a /\ symmetric g (fa_tel a) /\ moves g (fa_illum a) (tel_pr (fa_tel a)) /\ mirrored_on_grid g a.
