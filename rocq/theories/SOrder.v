(** Specification: the order in which a fit_zpoly run creates its files. *)
From Coq Require Import String Ascii List.
From Verif Require Import PyBase Num MFs MOut SOut.
Import ListNotations.
Open Scope string_scope.
Open Scope list_scope.

(** Files of one order, relative to the directory of the run: the parameters, then
    (order 1 only) the description of the run and its data, then the other tables,
    then the figures. *)
Definition order_sequence (n : nat) (plots : bool) : list path :=
  map (fun f => [f]) (("fitpar_n" ^^ dec n ^^ ".csv")
    :: (if Nat.eqb n 1 then ["pyoof_info.yml"; "beam_data.csv"; "u_data.csv"; "v_data.csv"] else [])
    ++ map (fun stem => stem ^^ "_n" ^^ dec n ^^ ".csv") ["res"; "jac"; "grad"; "phase"; "cov"; "corr"])
  ++ (if plots then map (fun f => ["plots"; f]) (order_figures n ++ if Nat.eqb n 1 then ["obsbeam.pdf"] else []) else []).
(** The orders one after the other. *)
Definition run_sequence (N : nat) (plots : bool) : list path := flat_map (fun n => order_sequence n plots) (seq 1 N).

(** A file that is written to its end. *)
Definition complete (s : fs) (q : path) : Prop := exists dc, dc <> Partial /\ s q = Some (File dc).
(** No file of the list exists before all earlier ones are complete. *)
Definition in_sequence (s : fs) (d : path) (l : list path) : Prop :=
  forall before x after, l = before ++ x :: after -> s (d ++ x) <> None -> forall y, In y before -> complete s (d ++ y).

(** The same call with another order_max. *)
Definition with_orders (a : fit_args) (n : nat) : fit_args := {|
  fa_name := fa_name a; fa_pthto := fa_pthto a; fa_object := fa_object a; fa_date := fa_date a; fa_freq := fa_freq a; fa_wavel := fa_wavel a; fa_d_z := fa_d_z a;
  fa_meanel := fa_meanel a; fa_beam := fa_beam a; fa_u := fa_u a; fa_v := fa_v a; fa_order_max := n; fa_illum := fa_illum a; fa_illum_name := fa_illum_name a;
  fa_tel := fa_tel a; fa_opd_name := fa_opd_name a; fa_tel_name := fa_tel_name a; fa_resolution := fa_resolution a; fa_box_factor := fa_box_factor a;
  fa_fit_previous := fa_fit_previous a; fa_config_file := fa_config_file a; fa_make_plots := fa_make_plots a; fa_work_dir := fa_work_dir a |}.
