(** From the observations to the look-up table: specification vocabulary. *)
From Coq Require Import String Ascii List.
From Verif Require Import PyBase Num MMath MAperture MRad MCore MFs MOut MAct MAux SAux SOut SFit MTab MScript SScript SAct SLookup.
Import ListNotations.
Open Scope R_scope.
Open Scope string_scope.
Open Scope list_scope.

(** The parameters that belong to the numbers x found by the optimizer, with the
    default configuration: the amplitude and the coefficients from K(1, -1) on are
    fitted; taper, q, centre and K(0, 0) are fixed. *)
Definition filled (x : list R) : list R := firstn 1 x ++ [- (29 / 2); 7 / 5; 0; 0; 0] ++ skipn 1 x.
(** The optimizer's solution of order n for the data of [a], order after order. *)
Inductive found (orc : oracle) (a : fit_args) : nat -> list R -> Prop :=
| found_first out : answered orc a default_config 1 (cf_init default_config) out -> found orc a 1 (filled (lo_x out))
| found_next n p out : found orc a n p -> answered orc a default_config (S n) (p ++ repeat (1 / 10) (n + 2)) out -> found orc a (S n) (filled (lo_x out)).

(** The observation [ob], one of the files, counts for the look-up table with the
    coefficients K of order n: in-focus signal-to-noise ratio above 200, no offset. *)
Definition counts (orc : oracle) (sc : script) (su : setup) (cwd : path) (s : fs) (files : list string) (n : nat) (ob : observation) (K : list R) : Prop :=
  exists f a p snrs, In f files /\ observed cwd s f ob /\ fit_of sc ob su a /\ found orc a n p /\ K = skipn 5 p /\
    snr_values orc a = Ok snrs /\ above_200 (nth 1 snrs NaN) /\ ~ (ob_name ob = "offset" \/ exists t, ob_name ob = t ^^ "-offset").

(** What the shell pattern <base>/*000 lists. *)
Definition glob_000 (s : fs) (base : path) (runs : list path) : Prop :=
  NoDup runs /\ forall d, In d runs <-> exists c, d = base ++ [c ^^ "000"] /\ (forall t, c ^^ "000" <> String "." t) /\ s d <> None.
(** Nothing of earlier runs. *)
Definition no_runs (w : path) (s : fs) : Prop := forall c, s (w ++ ["pyoof_out"; c]) = None.
