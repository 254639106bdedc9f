(** Specification: files that are read while they are being written. *)
From Coq Require Import String List.
From Verif Require Import PyBase Num MFs MOut.
Import ListNotations.

(** What may be seen of a file with the final content [final]: nothing, or some of its
    first rows (the rows that have reached the disk).  A row cut in the middle has too few
    columns and makes the reader raise, as an empty file does; a last number cut in the
    middle is not covered. *)
Inductive beginning (final : doc) : doc -> Prop :=
| nothing_yet : beginning final Partial
| first_rows h m k : final = Csv h (A2 m) -> (k < length m)%nat -> beginning final (Csv h (A2 (firstn k m)))
| first_numbers h l k : final = Csv h (A1 l) -> (k < length l)%nat -> beginning final (Csv h (A1 (firstn k l)))
| first_params rows k : final = Params rows -> (k < length rows)%nat -> beginning final (Params (firstn k rows)).
(** [seen] is what may be seen of [st], a state on the way to [sf]: the unfinished files
    show the beginning of what they will hold. *)
Definition glimpse (st sf seen : fs) : Prop := forall q, seen q = st q \/
  st q = Some (File Partial) /\ exists final d, sf q = Some (File final) /\ beginning final d /\ seen q = Some (File d).
