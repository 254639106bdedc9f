(** Property theorems C47, C51, C69: observation files and the figure size. *)
From Coq Require Import String Ascii List.
From Verif Require Import PyBase Num MFs MAct MAux SAux PAux PAux3.
Import ListNotations.
Open Scope R_scope.
Open Scope string_scope.
Open Scope list_scope.

(** C47. A path that is not <directory part><stem>.fits: ValueError, no system call. *)
Theorem C47_other_names_rejected cwd p : (forall dir stem, ~ names_fits p dir stem) ->
  extract_data_pyoof cwd p = Raise ValueError /\ extract_data_effelsberg cwd p = Raise ValueError.
Proof. exact (rejects cwd p). Qed.
Print Assumptions C47_other_names_rejected.

(** An accepted path: the file is looked for, nothing is written, and what comes
    back is the stem and a directory from which stem.fits names the same file. *)
Theorem C47_accepted cwd p dir stem s : names_fits p dir stem ->
  (s (resolve cwd p) = None ->
     fst (run (extract_data_pyoof cwd p) s) = Err FileNotFoundError /\ fst (run (extract_data_effelsberg cwd p) s) = Err FileNotFoundError) /\
  (forall q, snd (run (extract_data_pyoof cwd p) s) q = s q /\ snd (run (extract_data_effelsberg cwd p) s) q = s q) /\
  (forall ob, fst (run (extract_data_pyoof cwd p) s) = Ok ob \/ fst (run (extract_data_effelsberg cwd p) s) = Ok ob ->
     ob_name ob = stem /\ forall cwd', resolve cwd' (joined (ob_pthto ob) (stem ^^ ".fits")) = resolve cwd' p).
Proof.
  exact (fun NF => conj (missing_file cwd p dir stem s NF) (conj (extract_unchanged cwd p s)
    (fun ob H => match split_names p dir stem NF with
     | conj E1 E2 =>
       match (match H with or_introl X => proj1 (proj1 (pyoof_iff cwd p dir stem s ob NF) X) | or_intror X => proj1 (proj1 (effelsberg_iff cwd p dir stem s ob NF) X) end) with
       | conj N1 N2 => conj (eq_trans N1 E1) (fun cwd' => eq_trans (f_equal (fun d => resolve cwd' (joined d (stem ^^ ".fits"))) N2) (E2 cwd'))
       end end))).
Qed.
Print Assumptions C47_accepted.

(** [resolve] is the file that the path names, and a path names exactly one. *)
Theorem C47_file cwd p q : leads cwd p q <-> q = resolve cwd p.
Proof. exact (leads_iff cwd p q). Qed.
Print Assumptions C47_file.
Example C47_file_nonvacuous : leads ["home"; "me"] "../you/./a//b.fits" ["home"; "you"; "a"; "b.fits"] /\ leads ["home"] "/../x.fits" ["x.fits"].
Proof. split; apply leads_iff; reflexivity. Qed.

(** The directory part and the stem are determined by the path. *)
Theorem C47_unique p dir stem dir' stem' : names_fits p dir stem -> names_fits p dir' stem' -> dir = dir' /\ stem = stem'.
Proof. exact (names_fits_unique p dir stem dir' stem'). Qed.
Print Assumptions C47_unique.

Theorem C47_missing_key cwd p dir stem s f k : names_fits p dir stem -> s (resolve cwd p) = Some (File (Fits f)) ->
  In k ["FREQ"; "WAVEL"; "MEANEL"; "OBJECT"; "DATE_OBS"] -> absent k (ff_primary f) ->
  fst (run (extract_data_pyoof cwd p) s) = Err ValueError.
Proof. exact (missing_key cwd p dir stem s f k). Qed.
Print Assumptions C47_missing_key.

Example C47_nonvacuous :
  names_fits "obs//3C84/scan_12.fits" "obs//3C84/" "scan_12" /\ resolve ["home"] "obs//3C84/scan_12.fits" = ["home"; "obs"; "3C84"; "scan_12.fits"] /\
  names_fits "/../x..fits" "/../" "x." /\ names_fits "scan.fits" "" "scan" /\
  (forall dir stem, ~ names_fits "a.fits/..fits" dir stem) /\ (forall dir stem, ~ names_fits "scan.FITS" dir stem) /\ (forall dir stem, ~ names_fits "scan.fits/" dir stem).
Proof.
  split; [split; [reflexivity|]; split; [right; exists "obs//3C84"; reflexivity|]; split; [cbn; intuition discriminate|]; exists "s"%char; split; [left; reflexivity|discriminate]|].
  split; [reflexivity|].
  split; [split; [reflexivity|]; split; [right; exists "/.."; reflexivity|]; split; [cbn; intuition discriminate|]; exists "x"%char; split; [left; reflexivity|discriminate]|].
  split; [split; [reflexivity|]; split; [left; reflexivity|]; split; [cbn; intuition discriminate|]; exists "s"%char; split; [left; reflexivity|discriminate]|].
  repeat split; intros dir stem H; pose proof (f_equal snd (splitext_yes _ _ _ H)) as X; discriminate X.
Qed.

(** C69. What is read: keys, columns and the order of the three maps.
    [path_split] is os.path.split. *)
Theorem C69_pyoof_layout cwd p dir stem s ob : names_fits p dir stem ->
  (fst (run (extract_data_pyoof cwd p) s) = Ok ob <->
   ((ob_name ob = stem /\ ob_pthto ob = fst (path_split p)) /\
    exists f t1 t2 t3 rest, s (resolve cwd p) = Some (File (Fits f)) /\ general f ob /\ entry "WAVEL" (ff_primary f) (HNum (ob_wavel ob)) /\
     ff_tables f = t1 :: t2 :: t3 :: rest /\ observed_maps t1 t2 t3 "BEAM" "U" "V" ob)).
Proof. exact (fun NF => eq_ind _ (fun x => _ <-> ((_ = x /\ _) /\ _)) (pyoof_iff cwd p dir stem s ob NF) _ (proj1 (split_names p dir stem NF))). Qed.
Print Assumptions C69_pyoof_layout.
Theorem C69_effelsberg_layout cwd p dir stem s ob : names_fits p dir stem ->
  (fst (run (extract_data_effelsberg cwd p) s) = Ok ob <->
   ((ob_name ob = stem /\ ob_pthto ob = fst (path_split p)) /\
    exists f t1 t2 t3 rest, s (resolve cwd p) = Some (File (Fits f)) /\ general f ob /\ ob_wavel ob = 299792458 / ob_freq ob /\
     ff_tables f = t1 :: t2 :: t3 :: rest /\ observed_maps t3 t1 t2 "fnu" "DX" "DY" ob)).
Proof. exact (fun NF => eq_ind _ (fun x => _ <-> ((_ = x /\ _) /\ _)) (effelsberg_iff cwd p dir stem s ob NF) _ (proj1 (split_names p dir stem NF))). Qed.
Print Assumptions C69_effelsberg_layout.
Definition eff_table (z x : R) : table_hdu := {| th_name := "map"; th_header := [("DZ", HNum z)]; th_cols := [("DX", [Fin x]); ("DY", [Fin (2 * x)]); ("fnu", [Fin (3 * x)])] |}.
Definition eff_file : fits_file := {|
  ff_primary := [("FREQ", HNum 2); ("MEANEL", HNum 45); ("OBJECT", HStr "3C84"); ("DATE_OBS", HStr "now")];
  ff_tables := [eff_table 0 1; eff_table 5 2; eff_table (-5) 3] |}.
Example C69_nonvacuous : let s := upd (fun _ => None) ["d"; "scan.fits"] (File (Fits eff_file)) in
  exists ob, fst (run (extract_data_effelsberg [] "/d/scan.fits") s) = Ok ob /\ ob_d_z ob = [-5; 0; 5] /\ ob_name ob = "scan" /\ ob_pthto ob = "/d" /\
    ob_u ob = [[Fin 3]; [Fin 1]; [Fin 2]].
Proof. eexists. split; [reflexivity|]. repeat split; reflexivity. Qed.

(** C51. cu, cv: radians per unit of u and of v. *)
Theorem C51_figure_size cu cv u v a b c d : extremes u a b -> extremes v c d -> c < d ->
  uv_ratio cu cv u v = Ok (11.25 * ((b - a) * cu) / ((d - c) * cv), 5).
Proof. exact (uv_formula cu cv u v a b c d). Qed.
Print Assumptions C51_figure_size.
Theorem C51_common_unit k cu cv u v : 0 < k -> cv <> 0 -> uv_ratio cu cv (map (Rmult k) u) (map (Rmult k) v) = uv_ratio cu cv u v.
Proof. exact (uv_units k cu cv u v). Qed.
Print Assumptions C51_common_unit.
Theorem C51_pointing a0 b0 cu cv u v : cv <> 0 -> uv_ratio cu cv (map (Rplus a0) u) (map (Rplus b0) v) = uv_ratio cu cv u v.
Proof. exact (uv_shift a0 b0 cu cv u v). Qed.
Print Assumptions C51_pointing.
Example C51_nonvacuous : extremes [3; -1; 2] (-1) 3 /\ extremes [0; 2] 0 2 /\ uv_ratio 1 1 [3; -1; 2] [0; 2] = Ok (22.5, 5).
Proof.
  assert (U : extremes [3; -1; 2] (-1) 3) by (split; [right; left; reflexivity|]; split; [left; reflexivity|]; intros x [<-|[<-|[<-|[]]]]; lra).
  assert (V : extremes [0; 2] 0 2) by (split; [left; reflexivity|]; split; [right; left; reflexivity|]; intros x [<-|[<-|[]]]; lra).
  split; [exact U|]. split; [exact V|]. rewrite (uv_formula 1 1 _ _ _ _ _ _ U V) by lra. f_equal. f_equal. lra.
Qed.
