(** Specification of one row of table_pyoof_out. *)
From Coq Require Import String Ascii List.
From Verif Require Import PyBase Sums Num MMath MAperture MFs MOut SMath SOut SFit MTab.
Import ListNotations.
Open Scope R_scope.
Open Scope string_scope.
Open Scope list_scope.

(** Row [r] describes order n of the run stored in directory [d]. *)
Definition summarises (s : fs) (n : nat) (d : path) (r : tab_row) : Prop :=
  exists i rows h m N left1 left2 c0 c1 c2 rest,
    s (d ++ ["pyoof_info.yml"]) = Some (File (Info i)) /\
    tr_name r = ri_name i /\ tr_tel_name r = ri_tel_name i /\ tr_object r = ri_object i /\ tr_date r = ri_date i /\
    tr_meanel r = ri_meanel i /\ tr_snr r = ri_snr i /\ length (ri_snr i) = 3%nat /\
    fitpar_rows s d n rows /\ map parfit rows = c0 :: c1 :: c2 :: rest /\ tr_i_amp r = c0 /\ tr_c_dB r = c1 /\ tr_q r = c2 /\
    csv_file s d ("phase_n" ^^ dec n ^^ ".csv") h (A2 m) /\ square N m /\ (2 <= N)%nat /\
    rms_circ m = Ok (tr_rms r, left1) /\ e_rs_circ m = Ok (tr_e_rs r, left2).
(** What numpy.savetxt stores: the rows of an array have one length. *)
Definition arrays_stored (s : fs) : Prop := forall q h m, s q = Some (File (Csv h (A2 m))) -> exists k, rect k m.

(** Mean of the squares over the pixels of the disk inscribed in an N x N map. *)
Definition disk_mean_square (N : nat) (m : list (list R)) : R :=
  Rsum N (fun j => Rsum N (fun i => if diskb N i j then nth i (nth j m []) 0 ^ 2 else 0)) /
  Rsum N (fun j => Rsum N (fun i => if diskb N i j then 1 else 0)).
