(** C05, C07: index validation and the (n, l) enumeration. *)
From Verif Require Import PyBase Sums PyLib MZernike PZernike SZernike PDisk.
Open Scope Z_scope.

Definition blk (i : nat) : list (Z * Z) :=
  map (fun k => (Z.of_nat i, - Z.of_nat i + 2 * Z.of_nat k)) (seq 0 (S i)).

Lemma range3_blk i : range3 (- Z.of_nat i) (Z.of_nat i + 1) 2 = map (fun k => - Z.of_nat i + 2 * Z.of_nat k) (seq 0 (S i)).
Proof.
  unfold range3. replace (Z.to_nat _) with (S i); [reflexivity|].
  replace (Z.of_nat i + 1 - - Z.of_nat i + 2 - 1) with ((Z.of_nat (S i)) * 2) by lia.
  rewrite Z.div_mul by lia. lia.
Qed.

Lemma flat_map_map {A B C} (f : A -> B) (g : B -> list C) l : flat_map g (map f l) = flat_map (fun x => g (f x)) l.
Proof. induction l as [|x t IH]; cbn; [reflexivity|]. rewrite IH; reflexivity. Qed.

Lemma nl_list_nat (n : nat) : nl_list (Z.of_nat n) = flat_map blk (seq 0 (S n)).
Proof.
  unfold nl_list. replace (Z.of_nat n + 1) with (Z.of_nat (S n)) by lia. rewrite range2_nat, flat_map_map.
  apply flat_map_ext. intros i. rewrite range3_blk, map_map. reflexivity.
Qed.

Lemma nl_list_neg n : n < 0 -> nl_list n = [].
Proof. intros H. unfold nl_list. rewrite range2_neg by lia. reflexivity. Qed.

Lemma nl_list_S (n : nat) : nl_list (Z.of_nat (S n)) = nl_list (Z.of_nat n) ++ blk (S n).
Proof. rewrite !nl_list_nat, (seq_S (S n) 0), flat_map_app. cbn [flat_map Nat.add]. rewrite app_nil_r. reflexivity. Qed.

Lemma nl_list_in n i j : In (i, j) (nl_list n) <-> (i <= n /\ admissible i j).
Proof.
  unfold nl_list, admissible. rewrite in_flat_map. split.
  - intros (i' & Hi & Hj). apply in_map_iff in Hj as (j' & [= <- <-] & Hj). apply in_range2 in Hi.
    apply in_range3 in Hj as (k & Hk & -> & Hlt); [|lia]. split; [lia|]. split; [lia|]. exists (i' - k). lia.
  - intros (Hin & Hl & k & Hk). exists i. split; [apply in_range2; lia|]. apply in_map_iff. exists j. split; [reflexivity|].
    apply in_range3; [lia|]. exists (i - k). lia.
Qed.

Lemma blk_length i : length (blk i) = S i.
Proof. unfold blk. rewrite map_length, seq_length. reflexivity. Qed.

Lemma nl_list_length_nat (n : nat) : (2 * length (nl_list (Z.of_nat n)) = (n + 1) * (n + 2))%nat.
Proof.
  induction n as [|n IH].
  - reflexivity.
  - rewrite nl_list_S, app_length, blk_length. lia.
Qed.

Lemma nl_list_length n : -1 <= n -> 2 * Z.of_nat (length (nl_list n)) = (n + 1) * (n + 2).
Proof.
  intros H. destruct (Z.eq_dec n (-1)) as [->|Hn]; [reflexivity|].
  pose proof (nl_list_length_nat (Z.to_nat n)). rewrite Z2Nat.id in H0 by lia. nia.
Qed.

Lemma NoDup_app_intro {A} (l1 l2 : list A) : NoDup l1 -> NoDup l2 -> (forall x, In x l1 -> ~ In x l2) -> NoDup (l1 ++ l2).
Proof.
  induction l1 as [|x t IH]; cbn; intros H1 H2 H; [assumption|].
  inversion H1; subst. constructor.
  - rewrite in_app_iff. intros [?|?]; [contradiction|]. eapply H; eauto.
  - apply IH; auto.
Qed.

Lemma NoDup_map_inj {A B} (f : A -> B) l : (forall x y, f x = f y -> x = y) -> NoDup l -> NoDup (map f l).
Proof.
  intros Hf; induction 1; cbn; constructor; [|assumption].
  rewrite in_map_iff. intros (y & E & Hy). apply Hf in E. subst; contradiction.
Qed.

Lemma nl_list_NoDup n : NoDup (nl_list n).
Proof.
  destruct (Z.ltb_spec n 0); [rewrite nl_list_neg by lia; constructor|].
  rewrite <- (Z2Nat.id n) by lia. induction (Z.to_nat n) as [|k IH].
  - cbn. constructor; [intros []|constructor].
  - rewrite nl_list_S. apply NoDup_app_intro; [assumption| |].
    + unfold blk. apply NoDup_map_inj; [|apply seq_NoDup]. intros x y E. apply (f_equal snd) in E. cbn [snd] in E. lia.
    + intros [i j] H1 H2. apply nl_list_in in H1. unfold blk in H2. apply in_map_iff in H2 as (? & [= <- <-] & ?). lia.
Qed.

Lemma nl_list_prefix n n' : n <= n' -> exists rest, nl_list n' = nl_list n ++ rest.
Proof.
  intros H. destruct (Z.ltb_spec n 0). { exists (nl_list n'). rewrite (nl_list_neg n) by lia. reflexivity. }
  rewrite <- (Z2Nat.id n), <- (Z2Nat.id n') by lia.
  assert (Hle : (Z.to_nat n <= Z.to_nat n')%nat) by lia. induction Hle as [|k Hk IH].
  - exists []. rewrite app_nil_r; reflexivity.
  - destruct IH as [r Hr]. rewrite nl_list_S, Hr. exists (r ++ blk (S k)). rewrite app_assoc. reflexivity.
Qed.

(** Position of (i, j). *)
Lemma nl_list_nth n i j : i <= n -> admissible i j ->
  nth_error (nl_list n) (Z.to_nat ((i * (i + 2) + j) / 2)) = Some (i, j).
Proof.
  intros Hin [Hl [k Hk]].
  destruct (nl_list_prefix i n Hin) as [rest ->].
  assert (Hi : 0 <= i) by lia.
  assert (Hpos : (i * (i + 2) + j) / 2 = i * (i + 1) / 2 + (i - k)).
  { replace (i * (i + 2) + j) with (i * (i + 1) + (i - k) * 2) by nia. rewrite Z.div_add by lia. reflexivity. }
  assert (Hk2 : 0 <= i - k <= i) by lia.
  assert (Hlen : length (nl_list (i - 1)) = Z.to_nat (i * (i + 1) / 2)).
  { pose proof (nl_list_length (i - 1) ltac:(lia)) as E.
    replace (i * (i + 1)) with (Z.of_nat (length (nl_list (i - 1))) * 2) by nia. rewrite Z.div_mul by lia. lia. }
  assert (Hsplit : nl_list i = nl_list (i - 1) ++ blk (Z.to_nat i)).
  { destruct (Z.eq_dec i 0) as [->|Hi0]; [reflexivity|].
    replace i with (Z.of_nat (S (Z.to_nat (i - 1)))) at 1 by lia. rewrite nl_list_S.
    f_equal; f_equal; lia. }
  assert (0 <= i * (i + 1) / 2) by (apply Z.div_pos; nia).
  assert (Hlt : (Z.to_nat (i - k) < S (Z.to_nat i))%nat) by lia.
  rewrite nth_error_app1.
  2:{ rewrite Hsplit, app_length, blk_length, Hlen, Hpos. lia. }
  rewrite Hsplit, nth_error_app2 by (rewrite Hlen, Hpos; lia).
  rewrite Hlen, Hpos. replace (Z.to_nat (i * (i + 1) / 2 + (i - k)) - Z.to_nat (i * (i + 1) / 2))%nat with (Z.to_nat (i - k)) by lia.
  unfold blk. rewrite nth_error_map.
  rewrite (nth_error_nth' (seq 0 (S (Z.to_nat i))) O) by (rewrite seq_length; exact Hlt).
  rewrite seq_nth by exact Hlt. cbn [option_map]. do 2 f_equal; lia.
Qed.

(** C05. *)
Lemma U_int_ok n l : 0 <= n -> exists g, zernike_U_int n l = Ok g.
Proof.
  intros Hn. unfold zernike_U_int. destruct (Z.ltb_spec n (Z.abs l)) as [H|H].
  - rewrite zernike_R_small by assumption. cbn [bind]. destruct (Z.ltb l 0); eexists; reflexivity.
  - destruct (zernike_R_nat (Z.to_nat n) (Z.to_nat (Z.abs l)) ltac:(lia)) as (g & E & _).
    rewrite !Z2Nat.id in E by lia. rewrite E. cbn [bind]. destruct (Z.ltb l 0); eexists; reflexivity.
Qed.

Lemma U_small n l : n < Z.abs l -> exists g, zernike_U_int n l = Ok g /\ forall rho t, g rho t = 0%R.
Proof.
  intros H. unfold zernike_U_int. rewrite zernike_R_small by assumption. cbn [bind].
  destruct (Z.ltb l 0); eexists; (split; [reflexivity|]); intros; cbn; ring.
Qed.


Lemma U_checked n l :
  (is_int l /\ is_int n /\ 0 <= int_val n -> zernike_U n l = zernike_U_int (int_val n) (int_val l) /\ exists g, zernike_U n l = Ok g)
  /\ (~ (is_int l /\ is_int n /\ 0 <= int_val n) -> zernike_U n l = Err TypeError).
Proof.
  split.
  - intros (Hl & Hn & Hge).
    assert (E : zernike_U n l = zernike_U_int (int_val n) (int_val l)).
    { unfold zernike_U. destruct l as [l|[]|?|?|]; try contradiction; destruct n as [n|[]|?|?|]; try contradiction; cbn in *;
      try (destruct (Z.leb_spec 0 n); [|lia]); reflexivity. }
    split; [exact E|]. rewrite E. apply U_int_ok; assumption.
  - intros H. unfold zernike_U. destruct l as [l|[]|?|?|]; cbn; try reflexivity; destruct n as [n|[]|r|z|]; cbn in *; try reflexivity;
     try (destruct (Z.leb_spec 0 n); [exfalso; apply H; auto|reflexivity]);
     try (exfalso; apply H; repeat split; auto; lia);
     try (destruct (Rleb 0 r); reflexivity); try (destruct (Z.leb 0 z); reflexivity).
Qed.

(** Odd n - |l| is not rejected and not zero: U(1, 0) = rho. *)
Lemma U_odd : exists g, zernike_U (PyInt 1) (PyInt 0) = Ok g /\ forall rho t, g rho t = rho.
Proof.
  destruct (zernike_R_nat 1 0 ltac:(lia)) as (g & E & Hg).
  exists (fun rho t => g rho * cos (0 * t))%R. split.
  - change (zernike_U (PyInt 1) (PyInt 0)) with (bind (zernike_R (Z.of_nat 1) (Z.of_nat 0)) (fun r => Ok (fun rho t => r rho * cos (0 * t))%R)).
    rewrite E. reflexivity.
  - intros rho t. rewrite Hg, Rmult_0_l, cos_0. change ((1 + 0) / 2)%nat with 0%nat. change ((1 - 0) / 2)%nat with 0%nat.
    unfold Rsumform. cbn. field.
Qed.
