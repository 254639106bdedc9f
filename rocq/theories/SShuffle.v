(** Specification vocabulary: the points of an observation, in any order. *)
From Coq Require Import List Permutation.
From Verif Require Import PyBase Num SMath MAperture MCore MFs MOut.
Import ListNotations.
Open Scope R_scope.
Open Scope list_scope.

(** One reading at the position (u, v); one map at its radial offset. *)
Definition reading : Type := R * R * num.
Definition scan : Type := R * list reading.
(** The arguments d_z, u_data, v_data and beam_data of a list of maps. *)
Definition offsets (e : list scan) : list R := map fst e.
Definition us (e : list scan) : list (list R) := map (fun m => map (fun s : reading => fst (fst s)) (snd m)) e.
Definition vs (e : list scan) : list (list R) := map (fun m => map (fun s : reading => snd (fst s)) (snd m)) e.
Definition values (e : list scan) : list (list num) := map (fun m => map (fun s : reading => snd s) (snd m)) e.
(** The same maps in another order, the readings of each in another order. *)
Definition shuffled (e e' : list scan) : Prop :=
  exists e1, Permutation e e1 /\ Forall2 (fun m m' => fst m' = fst m /\ Permutation (snd m) (snd m')) e1 e'.
(** Every reading, labelled with the radial offset of its map, next to its entry of r. *)
Definition labelled (e : list scan) (r : list R) : list (R * reading * R) :=
  combine (concat (map (fun m => map (pair (fst m)) (snd m)) e)) r.
(** The fit is asked to fit these maps. *)
Definition observes (a : fit_args) (e : list scan) : Prop :=
  fa_d_z a = offsets e /\ fa_u a = us e /\ fa_v a = vs e /\ fa_beam a = values e.
(** The same telescope, illumination, wavelength and resolution. *)
Definition same_model (a b : fit_args) : Prop :=
  fa_wavel a = fa_wavel b /\ fa_illum a = fa_illum b /\ fa_tel a = fa_tel b /\ fa_resolution a = fa_resolution b /\ fa_box_factor a = fa_box_factor b.
(** The same answer of the optimizer, with another residual. *)
Definition with_residual (out : lsq_out) (r : list R) (J : list (list R)) : lsq_out :=
  {| lo_x := lo_x out; lo_fun := r; lo_jac := J; lo_grad := lo_grad out |}.
(** Maps of the same size, the same one or both with a reading that is not finite. *)
Definition same_or_broken (b b' : list num) : Prop :=
  length b' = length b /\ (b' = b \/ ((exists p, In p b /\ ~ finite p) /\ (exists p, In p b' /\ ~ finite p))).
