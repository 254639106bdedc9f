(** What a program does when system calls fail. *)
From Coq Require Import List.
From Verif Require Import PyBase Num MFs MFault.

(** Whichever calls fail: the outcome is that of an undisturbed run, or OSError is
    raised and the files are those of a run killed at some point. *)
Definition reports {A} (p : prog A) : Prop := forall bad s r s', run_bad false bad 0 p s = (r, s') ->
  (r, s') = run p s \/ (r = Err OSError /\ exists n, s' = snd (steps n p s)).

(** From the [n]-th call on, everything that can fail does (the disk is full). *)
Definition from (n : nat) : nat -> bool := Nat.leb n.
