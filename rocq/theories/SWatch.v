(** Specification vocabulary: one program that looks at the files while others run. *)
From Coq Require Import List.
From Verif Require Import PyBase MFs MScript.
Import ListNotations.

(** One program beside others on one file system.  The schedule says whose system call is next:
    [None] is a turn of the one program, [Some i] a turn of number i of the others. *)
Fixpoint beside {A B} (sched : list (option nat)) (look : prog A) (ps : list (prog B)) (s : fs) : prog A * list (prog B) * fs :=
  match sched with
  | [] => (look, ps, s)
  | None :: t => let '(look', s') := steps 1 look s in beside t look' ps s'
  | Some i :: t => let '(ps', s') := interleave_all [i] ps s in beside t look ps' s'
  end.

(** The turns of the one program, and those of the others. *)
Definition own_turns (sched : list (option nat)) : nat := length (filter (fun o => match o with None => true | _ => false end) sched).
Definition other_turns (sched : list (option nat)) : list nat := flat_map (fun o => match o with Some i => [i] | None => [] end) sched.
