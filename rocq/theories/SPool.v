(** Specification vocabulary: any number of fits at the same time. *)
From Coq Require Import List.
From Verif Require Import PyBase MFs MOut SOut SFit.
Import ListNotations.

(** Fits that neither write into the directories of one another nor into the configuration
    files that they read, with usable work directories. *)
Definition independent (fits : list (oracle * fit_args)) (s : fs) : Prop :=
  file_tree s /\
  (forall i f, nth_error fits i = Some f -> usable (fit_dir (snd f)) s /\ no_file_100 (snd f) s /\ ~ cfg_of (snd f) (base_of (snd f))) /\
  (forall i j f g, i <> j -> nth_error fits i = Some f -> nth_error fits j = Some g -> separate (snd f) (snd g) /\ config_clear (snd f) (snd g)).

Definition all_fits (fits : list (oracle * fit_args)) : list (prog unit) := map (fun f => fit_zpoly (fst f) (snd f)) fits.

(** The first n choices of an endless schedule. *)
Definition first_turns (f : nat -> nat) (n : nat) : list nat := map f (seq 0 n).
(** Each of the first m processes gets a turn again and again. *)
Definition fair (f : nat -> nat) (m : nat) : Prop := forall i n, (i < m)%nat -> exists k, (n <= k)%nat /\ f k = i.
