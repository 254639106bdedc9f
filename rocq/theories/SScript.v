(** Specification vocabulary for the programs in /repo/scripts. *)
From Coq Require Import String Ascii List.
From Verif Require Import PyBase Num MMath MAperture MRad MCore MFs MOut MAct MAux SAux SOut SFit MTab MSim MPlot MScript.
Import ListNotations.
Open Scope R_scope.
Open Scope string_scope.
Open Scope list_scope.

(** How many of the directories <name>-000 ... <name>-100 do not exist. *)
Definition free_numbers (w : path) (name : string) (s : fs) : nat :=
  length (filter (fun j => match s (numbered w name j) with None => true | Some _ => false end) (seq 0 101)).

(** The fit [a] is of the observation [ob] with the telescope [su] and the settings of the script. *)
Definition fit_of (sc : script) (ob : observation) (su : setup) (a : fit_args) : Prop :=
  fa_name a = ob_name ob /\ HStr (fa_object a) = ob_object ob /\ HStr (fa_date a) = ob_date ob /\ fa_freq a = ob_freq ob /\ fa_wavel a = ob_wavel ob /\
  fa_d_z a = ob_d_z ob /\ fa_meanel a = ob_meanel ob /\
  fa_beam a = ob_beam ob /\ map (map Fin) (fa_u a) = ob_u ob /\ map (map Fin) (fa_v a) = ob_v ob /\
  Ok (fa_illum a) = sc_illum sc /\ fa_illum_name a = sc_illum_name sc /\ fa_tel a = su_tel su /\ fa_opd_name a = su_opd_name su /\ fa_tel_name a = su_name su /\
  fa_order_max a = sc_order_max sc /\ fa_resolution a = 256%nat /\ fa_box_factor a = 5 /\ fa_fit_previous a = true /\
  fa_config_file a = None /\ fa_make_plots a = true /\ fa_work_dir a = Some (sc_work_dir sc).

(** The results of the fit [a], with the default configuration, in the directory [d],
    numbered without gaps: the documented files, all complete; the data, the information, and for every
    order the parameters, residuals, phase and matrices of one answer of the optimizer. *)
Definition order_results (orc : oracle) (a : fit_args) (s : fs) (d : path) (n : nat) : Prop :=
  exists rows out r xy ph cov cor idx,
    fitpar_rows s d n rows /\ length rows = (5 + coeffs n)%nat /\ started a default_config s d n (map parinit rows) /\
    answered orc a default_config n (map parinit rows) out /\
    params_complete (cf_fixed default_config) (cf_excluded default_config) (coeffs n) (lo_x out) = Ok (map parfit rows) /\
    csv_file s d ("res_n" ^^ dec n ^^ ".csv") ("Residual " ^^ fa_name a) (A2 (map (map Fin) r)) /\
    concat r = lo_fun out /\ length r = 3%nat /\ (forall x, In x r -> (3 * length x = length (lo_fun out))%nat) /\
    csv_file s d ("jac_n" ^^ dec n ^^ ".csv") ("Jacobian " ^^ fa_name a) (A2 (map (map Fin) (lo_jac out))) /\
    csv_file s d ("grad_n" ^^ dec n ^^ ".csv") ("Gradient " ^^ fa_name a) (A1 (map Fin (lo_grad out))) /\
    phase (skipn 5 (map parfit rows)) (tel_pr (fa_tel a)) false false 1000 = Ok (xy, ph) /\
    csv_file s d ("phase_n" ^^ dec n ^^ ".csv") ("Phase-error radians " ^^ fa_name a) (A2 (map (map Fin) ph)) /\
    np_delete (map INR (seq 0 (length rows))) (cf_excluded default_config) = Ok idx /\
    or_comat orc (lo_fun out) (lo_jac out) (length idx) = Ok (cov, cor) /\
    csv_file s d ("cov_n" ^^ dec n ^^ ".csv") ("Variance-Covariance matrix (first row fitted parameters idx) " ^^ fa_name a) (A2 (map (map Fin) (idx :: cov))) /\
    csv_file s d ("corr_n" ^^ dec n ^^ ".csv") ("Correlation matrix (first row fitted parameters idx) " ^^ fa_name a) (A2 (map (map Fin) (idx :: cor))).
Definition results_in (orc : oracle) (a : fit_args) (s : fs) (d : path) : Prop :=
  (exists j, (j <= 100)%nat /\ d = numbered (fit_dir a) (fa_name a) j /\ forall i, (i < j)%nat -> s (numbered (fit_dir a) (fa_name a) i) <> None) /\
  s d = Some Dir /\
  (forall f, In f (documented (fa_order_max a) (fa_make_plots a)) -> exists dc, dc <> Partial /\ s (d ++ f) = Some (File dc)) /\
  csv_file s d "beam_data.csv" ("Normalized beam " ^^ fa_name a) (A2 (fa_beam a)) /\
  csv_file s d "u_data.csv" ("u vector radians " ^^ fa_name a) (A2 (map (map Fin) (fa_u a))) /\
  csv_file s d "v_data.csv" ("v vector radians " ^^ fa_name a) (A2 (map (map Fin) (fa_v a))) /\
  (exists i snrs, snr_values orc a = Ok snrs /\ s (d ++ ["pyoof_info.yml"]) = Some (File (Info i)) /\ describes i a snrs) /\
  forall n, (1 <= n <= fa_order_max a)%nat -> order_results orc a s d n.

(** The observation that each file held before the script ran. *)
Definition observed (cwd : path) (s : fs) (f : string) (ob : observation) : Prop :=
  fst (run (extract_data_effelsberg cwd f) s) = Ok ob.

(** A run of orders 1 to N in the directory [d] has created [q]: [d] and the directories
    above it, the directory of the figures, the documented files; nothing else. *)
Definition belongs (N : nat) (d q : path) : Prop := above q d \/ q = d ++ ["plots"] \/ exists f, In f (documented N true) /\ q = d ++ f.

(** Every observation fitted with every telescope, in directories of their own that
    did not exist before; nothing else is new. *)
Definition all_stored (orc : oracle) (sc : script) (cwd : path) (files : list string) (s s' : fs) : Prop :=
  unaltered s s' /\
  exists obs dirs, Forall2 (observed cwd s) files obs /\ NoDup dirs /\
    Forall2 (fun job d => exists a, fit_of sc (fst job) (snd job) a /\ s d = None /\ results_in orc a s' d) (list_prod obs (sc_setups sc)) dirs /\
    forall q, (forall d, In d dirs -> ~ belongs (sc_order_max sc) d q) -> s' q = s q.

(** The files are named <stem>.fits, exist, and lie outside the output. *)
Definition input_files (cwd : path) (s : fs) (files stems : list string) : Prop :=
  Forall2 (fun f stem => exists dir, names_fits f dir stem) files stems /\ forall f, In f files -> s (resolve cwd f) <> None.
(** Enough free numbers for the observations of each name. *)
Definition room (sc : script) (stems : list string) (s : fs) : Prop :=
  forall stem, In stem stems -> (count_occ string_dec stems stem * length (sc_setups sc) <= free_numbers (sc_work_dir sc) stem s)%nat.

(** An observation that can be fitted: OBJECT and DATE_OBS are texts, the
    coordinates are finite, there are three maps with coordinates. *)
Definition fittable (ob : observation) : Prop :=
  (exists o, ob_object ob = HStr o) /\ (exists d, ob_date ob = HStr d) /\ (3 <= length (ob_beam ob))%nat /\
  exists u v, ob_u ob = map (map Fin) u /\ ob_v ob = map (map Fin) v /\ (3 <= length u)%nat /\ (3 <= length v)%nat /\
    forall i, (i < 3)%nat -> nth i u [] <> [] /\ nth i v [] <> [].

(** q lies in one of the numbered directories of this name. *)
Definition name_region (w : path) (name : string) (q : path) : Prop := exists j, (j <= 100)%nat /\ below (numbered w name j) q.

(** The wave-vector step of the simulated maps. *)
Definition grid_step (a : sim_args) : R := si_wavel a * (INR (si_resolution a) - 1) / (2 * (si_box_factor a * tel_pr (si_tel a)) * INR (si_resolution a)).
(** The unit of the figure of pyoof_simulate_data.py. *)
Definition degree_unit : angle_unit := {| au_name := "deg"; au_per_rad := 180 / PI |}.
