(** Model of core.residual in IEEE binary64.  Simplifications: as in MFloat5.v. *)
From Coq Require Import List ZArith.
From Verif Require Import PyBase Num MMath MAperture MRad MCore MFloat MFloat4 MFloat5.
Open Scope R_scope.

(** core.py:226-242 [residual(params, N_K_coeff, ..., config_params)]: the parameters are completed without arithmetic. *)
Definition residual64 (m : maths) (illum : list R -> R -> res (R -> R -> R)) (tel : telgeo) (fixed : list R) (excluded : list Z)
    (N_K : nat) (params : list R) (beam_data : list (list num)) (u_data v_data : list (list R))
    (d_z : list R) (wavel : R) (N : nat) (bf : R) : res (list R) :=
  bind (params_complete fixed excluded N_K params) (fun params_res =>
  residual_true64 m illum tel params_res beam_data u_data v_data d_z wavel N bf).
