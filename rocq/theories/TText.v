(** C124: what is read of a look-up file, whatever the file holds. *)
From Coq Require Import String Ascii List ZArith Lia.
From Verif Require Import PyBase PyLib Num MMath MFs MAct SAct PText SText.
Import ListNotations.
Open Scope R_scope.
Open Scope string_scope.
Open Scope list_scope.

(** C124. Any file in the format of a look-up table, whoever wrote it, with 96 lines or one: reading returns the integers that the lines hold (one line
    stands for all actuators) and the fixed elevations, and changes nothing. *)
Theorem C124_read fname t s rows : s fname = Some (File (Text t)) -> lookup_format t rows -> (length rows = 96 \/ length rows = 1)%nat ->
  exists table, run (read_lookup_plain fname) s = (Ok ([7; 10; 20; 30; 32; 40; 50; 60; 70; 80; 90], table), s) /\ rect 11 96 table /\
    forall j k z, (j < 11)%nat -> (k < 96)%nat -> spells (nth (3 + j) (nth (if Nat.eqb (length rows) 1 then 0%nat else k) rows []) "") z -> elem 0 table j k = IZR z.
Proof. exact (read_format fname t s rows). Qed.
Print Assumptions C124_read.

(** With any other number of lines: an exception. *)
Theorem C124_count fname t s rows : s fname = Some (File (Text t)) -> lookup_format t rows -> length rows <> 96%nat -> length rows <> 1%nat ->
  exists er, run (read_lookup_plain fname) s = (Err er, s).
Proof. exact (read_count fname t s rows). Qed.
Print Assumptions C124_count.

(** Each file has one meaning. *)
Theorem C124_one_meaning t : (exists p, upto "**ENDE**" t p /\ forall q, upto "**ENDE**" t q -> q = p) /\ (forall rows rows', text_has t rows -> text_has t rows' -> rows = rows') /\
  forall w z y, spells w z -> spells w y -> z = y.
Proof. exact (one_meaning t). Qed.
Print Assumptions C124_one_meaning.

(** The files that write_lookup writes (C53) are in the format, with the numbers of the table. *)
Theorem C124_written z : (forall j k, (j < 11)%nat -> (k < 96)%nat -> (Z.abs (z j k) <= 2 ^ 53)%Z) ->
  exists rows, lookup_format (table_text z) rows /\ length rows = 96%nat /\ forall j k, (j < 11)%nat -> (k < 96)%nat -> spells (nth (3 + j) (nth k rows []) "") (z j k).
Proof. exact (written_format z). Qed.
Print Assumptions C124_written.

(** A file written by hand with a blank line and text after the mark: one line is read, two lines are not. *)
Definition by_hand : string := String.append "NR 1 o  1 -20 3 4 5 6 7 8 9 0010 11 " (String (ascii_of_nat 10) "").
Definition hand_text (n : nat) : string := String.append (String.concat "" (repeat by_hand n)) (String (ascii_of_nat 10) "**ENDE** x 1").
Definition hand_file (n : nat) : fs := fun q => if path_eq_dec q ["t"] then Some (File (Text (hand_text n))) else None.
Definition hand_words : list string := ["NR"; "1"; "o"; "1"; "-20"; "3"; "4"; "5"; "6"; "7"; "8"; "9"; "0010"; "11"].
Example C124_nonvacuous : (forall n, hand_file n ["t"] = Some (File (Text (hand_text n)))) /\ lookup_format (hand_text 1) [hand_words] /\ lookup_format (hand_text 2) [hand_words; hand_words] /\
  lookup_format (hand_text 96) (repeat hand_words 96) /\ spells "-20" (-20) /\ spells "0010" 10.
Proof.
  assert (V : forall w z, decimal 0 w = Some z -> w <> "" -> (Z.abs z <= 2 ^ 53)%Z -> exists y, (Z.abs y <= 2 ^ 53)%Z /\ spells w y) by (intros w z H N L; exists z; split; [exact L|left; split; assumption]).
  assert (M : exists y, (Z.abs y <= 2 ^ 53)%Z /\ spells "-20" y) by (exists (-20)%Z; split; [lia|right; exists "20", 20%Z; repeat split; discriminate || reflexivity]).
  assert (W : forall j, (j < 11)%nat -> exists z, (Z.abs z <= 2 ^ 53)%Z /\ spells (nth (3 + j) hand_words "") z).
  { intros j Hj. do 11 (destruct j as [|j]; [first [exact M|eapply V; [vm_compute; reflexivity|vm_compute; discriminate|vm_compute; discriminate]]|]). lia. }
  assert (F : forall n, ascii_rows 14 (split_first "**ENDE**" (hand_text n)) = Ok (repeat hand_words n) -> Forall plain_char (list_ascii_of_string (split_first "**ENDE**" (hand_text n))) -> lookup_format (hand_text n) (repeat hand_words n)).
  { intros n R C. apply ascii_iff in R. destruct R as (T & _ & L). exists (split_first "**ENDE**" (hand_text n)). split; [apply first_upto|]. split; [exact C|]. split; [exact T|]. split; [exact L|]. intros j k Hj Hk.
    replace (nth k (repeat hand_words n) []) with hand_words; [apply W, Hj|]. rewrite repeat_length in Hk. clear -Hk. revert k Hk. induction n as [|n IH]; intros k Hk; [lia|]. destruct k; [reflexivity|]. cbn [repeat nth]. apply IH. lia. }
  assert (P : forall l, forallb is_plain l = true -> Forall plain_char l) by (intros l H; apply Forall_forall; intros c Hc; apply plain_iff; rewrite forallb_forall in H; apply H, Hc).
  split; [intros n; unfold hand_file; destruct (path_eq_dec ["t"] ["t"]) as [_|N]; [reflexivity|congruence]|].
  split; [apply (F 1%nat); [vm_compute; reflexivity|apply P; vm_compute; reflexivity]|]. split; [apply (F 2%nat); [vm_compute; reflexivity|apply P; vm_compute; reflexivity]|]. split; [apply (F 96%nat); [vm_compute; reflexivity|apply P; vm_compute; reflexivity]|].
  split; [right; exists "20", 20%Z; repeat split; discriminate || reflexivity|left; split; [discriminate|reflexivity]].
Qed.
