(** Specification of observation files: their names, the numbers they hold. *)
From Coq Require Import String Ascii List.
From Verif Require Import PyBase Num MFs.
Import ListNotations.
Open Scope R_scope.
Open Scope string_scope.
Open Scope list_scope.

Definition text (s : string) : list ascii := list_ascii_of_string s.

(** [p] is a directory part [dir] (empty, or ending in a slash) followed by
    [stem].fits, the stem having no slash and some character other than a dot. *)
Definition names_fits (p dir stem : string) : Prop :=
  p = dir ^^ stem ^^ ".fits" /\
  (dir = "" \/ exists d, dir = d ^^ "/") /\
  ~ In "/"%char (text stem) /\
  exists c, In c (text stem) /\ c <> "."%char.

(** The file that a path string names (POSIX, without links): repeated slashes count once, "." stays
    where it is, ".." goes to the parent (the root is its own parent), any other name goes down.
    [walk d p q]: from the directory d the text p leads to q. *)
Definition ends_here (p : string) : Prop := p = "" \/ exists r, p = "/" ^^ r.
Inductive walk : path -> string -> path -> Prop :=
| walk_end d : walk d "" d
| walk_slash d p q : walk d p q -> walk d ("/" ^^ p) q
| walk_dot d p q : ends_here p -> walk d p q -> walk d ("." ^^ p) q
| walk_up d c p q : ends_here p -> walk d p q -> walk (d ++ [c]) (".." ^^ p) q
| walk_root p q : ends_here p -> walk [] p q -> walk [] (".." ^^ p) q
| walk_down d c p q : c <> "" -> c <> "." -> c <> ".." -> ~ In "/"%char (text c) -> ends_here p -> walk (d ++ [c]) p q -> walk d (c ^^ p) q.
(** Seen from the directory [cwd]. *)
Definition leads (cwd : path) (p : string) (q : path) : Prop :=
  (exists r, p = "/" ^^ r /\ walk [] r q) \/ (~ (exists r, p = "/" ^^ r) /\ walk cwd p q).

(** os.path.join(d, f) for a relative f. *)
Definition joined (d f : string) : string :=
  if String.eqb d "" then f
  else if Ascii.eqb (last (text d) "/"%char) "/"%char then d ^^ f else d ^^ "/" ^^ f.

(** Value of a header key / column (the first entry of that name). *)
Definition entry {A} (k : string) (l : list (string * A)) (v : A) : Prop :=
  exists a b, l = a ++ (k, v) :: b /\ forall x, In x a -> fst x <> k.
Definition absent {A} (k : string) (l : list (string * A)) : Prop := forall x, In x l -> fst x <> k.

(** b is the largest / a the smallest number of the list. *)
Definition extremes (l : list R) (a b : R) : Prop :=
  In a l /\ In b l /\ forall x, In x l -> a <= x <= b.

(** One of the three maps in a file: columns of the given names, DZ in the header. *)
Definition map_in (t : table_hdu) (cb cu cv : string) (b u v : list num) (z : R) : Prop :=
  entry cb (th_cols t) b /\ entry cu (th_cols t) u /\ entry cv (th_cols t) v /\ entry "DZ" (th_header t) (HNum z).
(** The observation holds the maps of t1, t2, t3 in that order, arrays of one shape. *)
Definition observed_maps (t1 t2 t3 : table_hdu) (cb cu cv : string) (ob : observation) : Prop :=
  exists b1 b2 b3 u1 u2 u3 v1 v2 v3 z1 z2 z3,
    map_in t1 cb cu cv b1 u1 v1 z1 /\ map_in t2 cb cu cv b2 u2 v2 z2 /\ map_in t3 cb cu cv b3 u3 v3 z3 /\
    length b2 = length b1 /\ length b3 = length b1 /\ length u2 = length u1 /\ length u3 = length u1 /\
    length v2 = length v1 /\ length v3 = length v1 /\
    ob_beam ob = [b1; b2; b3] /\ ob_u ob = [u1; u2; u3] /\ ob_v ob = [v1; v2; v3] /\ ob_d_z ob = [z1; z2; z3].
(** The values common to the three maps. *)
Definition general (f : fits_file) (ob : observation) : Prop :=
  entry "FREQ" (ff_primary f) (HNum (ob_freq ob)) /\ entry "MEANEL" (ff_primary f) (HNum (ob_meanel ob)) /\
  entry "OBJECT" (ff_primary f) (ob_object ob) /\ entry "DATE_OBS" (ff_primary f) (ob_date ob).
