(** Executions in which system calls fail: a full disk, a missing permission, a
    read error.  The programs are those of the other models. *)
From Coq Require Import String List.
From Verif Require Import PyBase Num MFs.
Import ListNotations.

(** What the program sees when the operating system refuses a call: os.mkdir, open
    and the reading functions raise OSError where they are called; a failure while
    the file is written and closed leaves it unfinished and raises OSError out of
    the writing function (no try block in /repo/pyoof or /repo/scripts encloses
    one).  os.path.exists and os.path.isdir raise nothing: CPython genericpath.py
    answers False when the stat call fails; [stat] says whether those may fail too. *)
Definition refused (stat : bool) {X} (o : op X) : option (res X) :=
  match o in op X return option (res X) with
  | Exists _ => if stat then Some (Ok false) else None
  | Isdir _ => if stat then Some (Ok false) else None
  | Mkdir _ => Some (Ok (Err OSError))
  | OpenW _ => Some (Ok (Err OSError))
  | Put _ _ => Some (Err OSError)
  | Read _ => Some (Ok (Err OSError))
  end.

(** Execution in which the calls with the numbers [bad] fail ([i] = the number of
    the next call).  A call that fails changes nothing. *)
Fixpoint run_bad {A} (stat : bool) (bad : nat -> bool) (i : nat) (p : prog A) (s : fs) : res A * fs :=
  match p with
  | Ret a => (Ok a, s)
  | Raise e => (Err e, s)
  | Do o k =>
      match (if bad i then refused stat o else None) with
      | Some (Ok x) => run_bad stat bad (S i) (k x) s
      | Some (Err e) => (Err e, s)
      | None => let '(x, s') := exec o s in run_bad stat bad (S i) (k x) s'
      end
  end.
