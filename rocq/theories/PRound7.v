(** On grids with an even number of points no point is near the rim, so that binary64 finds the
    same points of the dish as exact arithmetic. *)
From Coq Require Import Reals List Lra Lia ZArith.
From Verif Require Import PyBase PyLib Num MMath MAperture SMath SFloat MFloat MFloat2 SRound SRound2 PRms POrder64 PRound PRound4 PRound5 PSim.
Import ListNotations.
Open Scope R_scope.

Lemma node_odd r n i : (2 <= n)%nat -> node r n i = r * (IZR (2 * Z.of_nat i - (Z.of_nat n - 1)) / INR (n - 1)).
Proof.
  intros N. unfold node. assert (P : 0 < INR (n - 1)) by (apply lt_0_INR; lia). rewrite minus_INR in * by lia. rewrite !minus_IZR, mult_IZR, <- !INR_IZR_INZ. change (INR 1) with 1 in *. field. lra.
Qed.
Lemma off_rim r n i j : 0 < r -> (2 <= n)%nat -> Nat.even n = true -> r ^ 2 * / INR (n - 1) ^ 2 <= Rabs (node r n i ^ 2 + node r n j ^ 2 - r ^ 2).
Proof.
  intros Hr N Ev. rewrite !node_odd by exact N. assert (P : 0 < INR (n - 1)) by (apply lt_0_INR; lia). set (a := (2 * Z.of_nat i - (Z.of_nat n - 1))%Z). set (b := (2 * Z.of_nat j - (Z.of_nat n - 1))%Z). set (m := INR (n - 1)) in *.
  assert (Em : m = IZR (Z.of_nat n - 1)) by (unfold m; rewrite minus_INR by lia; rewrite minus_IZR, <- INR_IZR_INZ; reflexivity).
  replace ((r * (IZR a / m)) ^ 2 + (r * (IZR b / m)) ^ 2 - r ^ 2) with (r ^ 2 * / m ^ 2 * IZR (a * a + b * b - (Z.of_nat n - 1) * (Z.of_nat n - 1))).
  2:{ rewrite minus_IZR, plus_IZR, !mult_IZR, <- Em. field. lra. }
  rewrite Rabs_mult, (Rabs_pos_eq (r ^ 2 * / m ^ 2)). 2:{ apply Rmult_le_pos; [nra|]. left. apply Rinv_0_lt_compat, pow_lt, P. }
  rewrite <- (Rmult_1_r (r ^ 2 * / m ^ 2)) at 1. apply Rmult_le_compat_l. { apply Rmult_le_pos; [nra|]. left. apply Rinv_0_lt_compat, pow_lt, P. }
  rewrite <- abs_IZR. apply IZR_le. apply Nat.even_spec in Ev. destruct Ev as [h Eh]. assert ((a * a + b * b - (Z.of_nat n - 1) * (Z.of_nat n - 1)) <> 0)%Z; [|lia].
  unfold a, b. subst n. rewrite Nat2Z.inj_mul. change (Z.of_nat 2) with 2%Z. set (x := Z.of_nat i). set (y := Z.of_nat j). set (z := Z.of_nat h). intros E.
  assert (Q : (2 * (2 * (x - z) * (x - z) + 2 * (x - z) + 2 * (y - z) * (y - z) + 2 * (y - z) - 2 * z * z + 2 * z) = -1)%Z) by lia. lia.
Qed.
Lemma rim_even r n i j : / 2 ^ 100 <= r -> INR n <= 2 ^ 23 -> (2 <= n)%nat -> Nat.even n = true -> (i < n)%nat -> (j < n)%nat ->
  let x := nth i (linspace (- r) r n) 0 in let y := nth j (linspace (- r) r n) 0 in outside64 r n i j = Rltb (r ^ 2) (x ^ 2 + y ^ 2).
Proof.
  intros Hr Hn N Ev Hi Hj. apply rim; try assumption; [lra|]. rewrite !node_linspace by assumption. assert (Rp : 0 < r) by (apply Rlt_le_trans with (2 := Hr), Rinv_0_lt_compat, pow_lt; lra).
  apply Rlt_le_trans with (2 := off_rim r n i j Rp N Ev). assert (P : 0 < INR (n - 1)) by (apply lt_0_INR; lia). assert (M : INR (n - 1) <= 2 ^ 23) by (apply Rle_trans with (2 := Hn), le_INR; lia).
  rewrite Rmult_comm. apply Rmult_lt_compat_l; [nra|]. apply Rinv_lt_contravar; [apply Rmult_lt_0_compat; apply pow_lt; lra|]. apply Rle_lt_trans with ((2 ^ 23) ^ 2); [apply pow_incr; lra|lra].
Qed.

(** ** rms(circ=True) *)
Lemma inside_disk n a : INR n <= 2 ^ 23 -> (2 <= n)%nat -> Nat.even n = true -> inside64 n a = disk_list n a.
Proof.
  intros Hn N Ev. unfold inside64, disk_list. f_equal. apply map_ext_in. intros j Hj. apply in_seq in Hj. f_equal. apply filter_ext_in. intros i Hi. apply in_seq in Hi.
  rewrite (rim_even 1 n i j) by (try assumption; try lia; lra). unfold diskb, Rltb. replace (1 ^ 2) with 1 by ring. replace (- (1)) with (-1) by ring.
  destruct (Rlt_dec 1 _); destruct (Rle_dec _ 1); try reflexivity; exfalso; lra.
Qed.
Lemma length_concat_le {A} k (l : list (list A)) : (forall x, In x l -> (length x <= k)%nat) -> (length (concat l) <= length l * k)%nat.
Proof. induction l as [|x l IH]; intros H; cbn [concat length]; [lia|]. rewrite app_length. pose proof (H x (or_introl eq_refl)). pose proof (IH (fun y Hy => H y (or_intror Hy))). lia. Qed.
Lemma filter_le {A} (f : A -> bool) l : (length (filter f l) <= length l)%nat.
Proof. induction l as [|x l IH]; cbn [filter length]; [lia|]. destruct (f x); cbn [length]; lia. Qed.
Lemma disk_list_length n a : (length (disk_list n a) <= n * n)%nat.
Proof.
  unfold disk_list. pose proof (length_concat_le n (map (fun j => map (fun i => a j i) (filter (fun i => diskb n i j) (seq 0 n))) (seq 0 n))) as H. rewrite map_length, seq_length in H. apply H.
  intros x Hx. apply in_map_iff in Hx. destruct Hx as [j [<- _]]. rewrite map_length. pose proof (filter_le (fun i => diskb n i j) (seq 0 n)) as Q. rewrite seq_length in Q. exact Q.
Qed.
Lemma disk_list_some n a : (4 <= n)%nat -> Nat.even n = true -> disk_list n a <> [].
Proof.
  intros N Ev E. assert (Hh : (n / 2 < n)%nat) by (apply Nat.div_lt; lia). assert (In (a (n / 2)%nat (n / 2)%nat) (disk_list n a)); [|rewrite E in H; exact H].
  unfold disk_list. apply in_concat. exists (map (fun i => a (n / 2)%nat i) (filter (fun i => diskb n i (n / 2)) (seq 0 n))). split; [apply in_map_iff; exists (n / 2)%nat; split; [reflexivity|apply in_seq; lia]|].
  apply in_map_iff. exists (n / 2)%nat. split; [reflexivity|]. apply filter_In. split; [apply in_seq; lia|]. unfold diskb. replace (-1) with (- (1)) by ring. rewrite node_linspace by exact Hh. rewrite node_odd by lia.
  apply Nat.even_spec in Ev. destruct Ev as [h Eh]. assert (E2 : (n / 2 = h)%nat) by (rewrite Eh, Nat.mul_comm; apply Nat.div_mul; lia). rewrite E2. replace (2 * Z.of_nat h - (Z.of_nat n - 1))%Z with 1%Z by lia.
  assert (M : 3 <= INR (n - 1)) by (replace 3 with (INR 3) by (cbn [INR]; lra); apply le_INR; lia). assert (0 < 1 / INR (n - 1) <= / 3). { unfold Rdiv. rewrite Rmult_1_l. split; [apply Rinv_0_lt_compat; lra|apply Rinv_le_contravar; lra]. }
  destruct (Rle_dec _ 1) as [_|Bad]; [reflexivity|]. exfalso. apply Bad. nra.
Qed.
Lemma rms_circ_disk n a : exists P', rms_circ (grid n (fun j i => Fin (a j i))) = Ok (rms_plain (map (map Fin) [disk_list n a]), P').
Proof.
  eexists. rewrite (rms_circ_unfold n) by apply grid_square. rewrite masked_grid. f_equal. f_equal. unfold rms_plain. cbn [map concat]. rewrite app_nil_r. f_equal.
  rewrite filter_concat. unfold grid. rewrite map_map. unfold disk_list. rewrite concat_map, map_map. f_equal. apply map_ext. intros j. rewrite filter_row, map_map. reflexivity.
Qed.
Lemma rms_circ_err n a t : (4 <= n)%nat -> Nat.even n = true -> INR n <= 2 ^ 23 -> INR (depth t) <= 2 ^ 50 -> adds t (inside64 n a) ->
  exists r P', rms_circ (grid n (fun j i => Fin (a j i))) = Ok (Fin r, P') /\ 0 <= r /\ Rabs (rms64 t (length (inside64 n a)) - r) <= (INR (depth t) + 4) * / 2 ^ 52 * r + / 2 ^ 400.
Proof.
  intros N Ev Hn D A. rewrite inside_disk in * by (try assumption; lia). destruct (rms_circ_disk n a) as [P' E]. assert (L : INR (length (disk_list n a)) <= 2 ^ 50).
  { apply Rle_trans with (INR (n * n)); [apply le_INR, disk_list_length|]. rewrite mult_INR. pose proof (pos_INR n). apply Rle_trans with (2 ^ 23 * 2 ^ 23); [apply Rmult_le_compat; lra|lra]. }
  destruct (rms_err [disk_list n a] t) as (r & E1 & E2 & E3); cbn [concat]; rewrite ?app_nil_r; try assumption; [apply disk_list_some; assumption|]. exists r, P'. rewrite E, E1. cbn [concat] in E3. rewrite app_nil_r in E3. auto.
Qed.
