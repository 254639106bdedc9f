(** Specification: what a text holds, for readers of files. *)
From Coq Require Import String Ascii List ZArith.
Import ListNotations.
Open Scope string_scope.
Open Scope list_scope.

(** The part of t before the first occurrence of a mark, all of it if there is none. *)
Definition upto (mark t p : string) : Prop :=
  (exists r, t = String.append p r /\ (r = "" \/ exists r', r = String.append mark r')) /\
  forall p' r', t = String.append p' (String.append mark r') -> (String.length p <= String.length p')%nat.

(** The parts of s between the occurrences of a character. *)
Definition splits (c : ascii) (s : string) (parts : list string) : Prop :=
  parts <> [] /\ String.concat (String c "") parts = s /\ Forall (fun p => ~ In c (list_ascii_of_string p)) parts.

(** The words of a line, between blanks. *)
Definition line_has (line : string) (ws : list string) : Prop :=
  exists parts, splits " " line parts /\ ws = filter (fun p => negb (String.eqb p "")) parts.

(** The lines of a text that have words, as words; there is at least one line break. *)
Definition text_has (t : string) (rows : list (list string)) : Prop :=
  exists lines all, splits (ascii_of_nat 10) t lines /\ (2 <= length lines)%nat /\ Forall2 line_has lines all /\
    rows = filter (fun r => negb (Nat.eqb (length r) 0)) all.

(** Decimal notation of an integer: digits, perhaps after a minus sign. *)
Definition digit (c : ascii) : option Z :=
  if (Nat.leb 48 (nat_of_ascii c) && Nat.leb (nat_of_ascii c) 57)%bool then Some (Z.of_nat (nat_of_ascii c) - 48)%Z else None.
Fixpoint decimal (acc : Z) (s : string) : option Z :=
  match s with
  | "" => Some acc
  | String c s' => match digit c with Some d => decimal (10 * acc + d) s' | None => None end
  end.
Definition spells (w : string) (z : Z) : Prop :=
  (w <> "" /\ decimal 0 w = Some z) \/ exists v y, w = String "-" v /\ v <> "" /\ decimal 0 v = Some y /\ z = (- y)%Z.

(** Digits, letters, minus signs, blanks and line breaks: no quotes, comments or other separators. *)
Definition plain_char (c : ascii) : Prop :=
  let n := nat_of_ascii c in (48 <= n <= 57)%nat \/ (65 <= n <= 90)%nat \/ (97 <= n <= 122)%nat \/ c = "-"%char \/ c = " "%char \/ n = 10%nat.

(** A text in the format of a look-up table: before the end mark, plain lines of 14 words of which the last eleven are integers (that a float can hold). *)
Definition lookup_format (t : string) (rows : list (list string)) : Prop :=
  exists p, upto "**ENDE**" t p /\ Forall plain_char (list_ascii_of_string p) /\ text_has p rows /\ Forall (fun r => length r = 14%nat) rows /\
    forall j k, (j < 11)%nat -> (k < length rows)%nat -> exists z, (Z.abs z <= 2 ^ 53)%Z /\ spells (nth (3 + j) (nth k rows []) "") z.
