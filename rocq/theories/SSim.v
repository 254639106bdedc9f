(** Specification of simulated observations. *)
From Coq Require Import String List.
From Verif Require Import PyBase Num MMath MAperture MRad MFs MSim SAux.
From Coquelicot Require Import Complex.
Import ListNotations.
Open Scope R_scope.
Open Scope string_scope.
Open Scope list_scope.

(** A k by k array given by row and column; its samples row by row. *)
Definition rows {A} (k : nat) (f : nat -> nat -> A) : list (list A) := map (fun r => map (f r) (seq 0 k)) (seq 0 k).
Definition block {A} (k : nat) (f : nat -> nat -> A) : list A := concat (rows k f).

(** The samples of an axis inside the limit are the k from number i0 on. *)
Definition window (axis : list R) (lim : R) (i0 k : nat) : Prop :=
  (i0 + k <= length axis)%nat /\
  forall i, (i < length axis)%nat -> (Rabs (nth i axis 0) < lim <-> (i0 <= i < i0 + k)%nat).
(** No sample lies exactly on the limit. *)
Definition clear_of (axis : list R) (lim : R) : Prop := forall x, In x axis -> Rabs x <> lim.

(** Half width of the maps: eight beam widths 1.22 wavel / (2 pr). *)
Definition half_width (a : sim_args) : R := 9.76 * si_wavel a / (2 * tel_pr (si_tel a)).
(** The numbered files. *)
Definition generated (w : path) (j : nat) : path := w ++ ["data_generated"; "test" ^^ pad3 j ^^ ".fits"].

(** Arguments a telescope can have. *)
Definition physical (a : sim_args) : Prop := 0 < si_wavel a /\ 0 < tel_pr (si_tel a) /\ 0 < si_box_factor a.
(** Simulated radiation pattern with defocus z: axes and field. *)
Definition beam_of (a : sim_args) (z : R) := radiation_pattern (si_illum a) (si_tel a) (si_I a) (si_K a) z (si_wavel a) (si_resolution a) (si_box_factor a).

(** Columns BEAM, U, V of map number i, fields F on the axis u cut to the window:
    power plus noise, the column's coordinate, the row's coordinate, each in
    single precision. *)
Definition sim_columns (orc : sim_oracles) (noise : R) (i : nat) (u : list R) (F : list (list C)) (i0 k : nat) : list num * list num * list num :=
  (map (so_f32 orc) (block k (fun r c => Cmod (at2 F (i0 + r) (i0 + c)) ^ 2 + if Req_EM_T noise 0 then 0 else so_normal orc noise i r c)),
   map (so_f32 orc) (block k (fun _ c => nth (i0 + c) u 0)),
   map (so_f32 orc) (block k (fun r _ => nth (i0 + r) u 0))).
(** A table with these columns and this DZ. *)
Definition holds_map (t : table_hdu) (c : list num * list num * list num) (z : R) : Prop :=
  let '(b, u, v) := c in map_in t "BEAM" "U" "V" b u v z.

(** The three maps are simulated on the axis u. *)
Definition beams (a : sim_args) (z0 z1 z2 : R) (u : list R) (F0 F1 F2 : list (list C)) : Prop :=
  exists v0 v1 v2, beam_of a z0 = Ok (u, v0, F0) /\ beam_of a z1 = Ok (u, v1, F1) /\ beam_of a z2 = Ok (u, v2, F2).

(** The offsets. *)
Definition offsets_ok (z0 z1 z2 : R) : Prop := z0 <= 0 /\ z1 = 0 /\ 0 <= z2.
(** Directory of the simulated files. *)
Definition gen_dir (a : sim_args) : path := si_work_dir a ++ ["data_generated"].
Definition sim_usable (a : sim_args) (s : fs) : Prop := s (si_work_dir a) = Some Dir /\ (s (gen_dir a) = None \/ s (gen_dir a) = Some Dir).
