(** C35-C37: params_complete against np.delete. *)
From Coq Require Import Sorted.
From Verif Require Import PyBase PyLib Num MMath MAperture PPhase MRad MCore.
Open Scope R_scope.

Fixpoint overwrite (fixed : list R) (ex : list nat) (off : nat) (v : list R) : list R :=
  match v with
  | [] => []
  | x :: t => (if existsb (Nat.eqb off) ex then nth off fixed 0 else x) :: overwrite fixed ex (S off) t
  end.

Lemma overwrite_length fixed ex off v : length (overwrite fixed ex off v) = length v.
Proof. revert off; induction v as [|x t IH]; intros off; cbn; [reflexivity|]. rewrite IH. reflexivity. Qed.
Lemma overwrite_nth fixed ex off v i : (i < length v)%nat ->
  nth i (overwrite fixed ex off v) 0 = if existsb (Nat.eqb (off + i)) ex then nth (off + i) fixed 0 else nth i v 0.
Proof.
  revert off i; induction v as [|x t IH]; intros off i Hi; cbn in *; [lia|]. destruct i as [|i].
  - rewrite Nat.add_0_r. reflexivity.
  - rewrite IH by lia. replace (S off + i)%nat with (off + S i)%nat by lia. reflexivity.
Qed.
Lemma overwrite_nil fixed off v : overwrite fixed [] off v = v.
Proof. revert off; induction v as [|x t IH]; intros off; cbn; [reflexivity|]. rewrite IH. reflexivity. Qed.

Lemma delete_at_nil {A} off (v : list A) : delete_at off [] v = v.
Proof. revert off; induction v as [|x t IH]; intros off; cbn; [reflexivity|]. rewrite IH. reflexivity. Qed.

Lemma existsb_lt off ex : (forall e, In e ex -> (off < e)%nat) -> existsb (Nat.eqb off) ex = false.
Proof.
  intros H. apply not_true_iff_false. intros E. apply existsb_exists in E as (e & He & E). apply Nat.eqb_eq in E. subst. specialize (H e He). lia.
Qed.

Lemma delete_ext {A} off ex ex' (v : list A) : (forall i, (off <= i)%nat -> existsb (Nat.eqb i) ex = existsb (Nat.eqb i) ex') -> delete_at off ex v = delete_at off ex' v.
Proof.
  revert off; induction v as [|x t IH]; intros off H; cbn; [reflexivity|]. rewrite <- (H off) by lia. rewrite (IH (S off)) by (intros; apply H; lia). reflexivity.
Qed.

(** Re-inserting the smallest deleted index. *)
Lemma reinsert off e t (v : list R) f : (off <= e)%nat -> (forall e', In e' t -> (e < e')%nat) -> (e < off + length v)%nat ->
  firstn (e - off) (delete_at off (e :: t) v) ++ f :: skipn (e - off) (delete_at off (e :: t) v) = delete_at off t (set_nth v (e - off) f)
  /\ (e - off <= length (delete_at off (e :: t) v))%nat.
Proof.
  revert off; induction v as [|x v IH]; intros off H1 H2 H3; cbn [length] in H3; [lia|].
  destruct (Nat.eq_dec off e) as [->|N].
  - rewrite Nat.sub_diag. cbn [delete_at set_nth firstn skipn app]. cbn [existsb]. rewrite Nat.eqb_refl. cbn [orb].
    rewrite (existsb_lt e t H2). split; [|lia]. f_equal. apply delete_ext. intros i Hi. cbn [existsb]. destruct (Nat.eqb_spec i e); [lia|reflexivity].
  - assert (E : existsb (Nat.eqb off) (e :: t) = false).
    { apply existsb_lt. intros e' [<-|H]; [lia|]. specialize (H2 e' H). lia. }
    assert (E' : existsb (Nat.eqb off) t = false).
    { apply existsb_lt. intros e' H. specialize (H2 e' H). lia. }
    replace (e - off)%nat with (S (e - S off)) by lia. cbn [delete_at set_nth]. rewrite E, E'. cbn [firstn skipn app length].
    destruct (IH (S off)) as [I1 I2]; [lia|assumption|lia|]. rewrite I1. split; [reflexivity|lia].
Qed.

(** One step of the loop. *)
Definition pc_step (fixed : list R) (acc : res (list R)) (i : nat) : res (list R) := bind acc (fun p => np_insert p i (nth i fixed 0)).

Lemma params_complete_fold fixed ex N_K params : length fixed = 8%nat -> (forall e, In e ex -> (e < 8)%nat) -> length params <> (5 + N_K)%nat ->
  params_complete fixed (map Z.of_nat ex) N_K params = fold_left (pc_step fixed) ex (Ok params).
Proof.
  intros Hf Hex Hl. destruct fixed as [|f0 [|f1 [|f2 [|f3 [|f4 [|f5 [|f6 [|f7 [|? ?]]]]]]]]]; cbn in Hf; try lia.
  unfold params_complete. destruct (Nat.eqb_spec (length params) (5 + N_K)); [contradiction|].
  generalize (Ok params). clear n Hl. induction ex as [|e ex IH]; intros acc; [reflexivity|]. cbn [map fold_left].
  rewrite IH by (intros; apply Hex; right; assumption). f_equal. unfold pc_step. destruct acc as [p|]; [|reflexivity]. cbn [bind].
  assert (e < 8)%nat by (apply Hex; left; reflexivity). do 8 (destruct e as [|e]; [reflexivity|]). lia.
Qed.

Lemma complete_spec fixed ex (v : list R) : Sorted lt ex -> (forall e, In e ex -> (e < length v)%nat) ->
  fold_left (pc_step fixed) ex (Ok (delete_at 0 ex v)) = Ok (overwrite fixed ex 0 v).
Proof.
  revert v; induction ex as [|e t IH]; intros v Hs Hl.
  - cbn. rewrite delete_at_nil, overwrite_nil. reflexivity.
  - cbn [fold_left]. inversion Hs as [|? ? Hst Hhd]; subst.
    assert (Hall : forall e', In e' t -> (e < e')%nat).
    { assert (St : StronglySorted lt (e :: t)) by (apply Sorted_StronglySorted; [intros a b c; lia|assumption]). inversion St as [|? ? _ HF]; subst. rewrite Forall_forall in HF. exact HF. }
    unfold pc_step at 2. cbn [bind]. unfold np_insert.
    destruct (reinsert 0 e t v (nth e fixed 0)) as [R1 R2]; [lia|assumption|apply Hl; left; reflexivity|]. rewrite Nat.sub_0_r in R1, R2.
    rewrite (proj2 (Nat.leb_le _ _) R2). rewrite R1. rewrite IH.
    + f_equal. apply nth_ext with (d := 0) (d' := 0).
      * rewrite !overwrite_length, set_nth_length. reflexivity.
      * intros i Hi. rewrite overwrite_length, set_nth_length in Hi. rewrite !overwrite_nth by (rewrite ?set_nth_length; assumption). cbn [Nat.add existsb].
        destruct (Nat.eqb_spec i e) as [->|N].
        -- cbn [orb]. rewrite (existsb_lt e t Hall). rewrite set_nth_same by assumption. reflexivity.
        -- cbn [orb]. rewrite set_nth_other by congruence. reflexivity.
    + assumption.
    + intros e' He'. rewrite set_nth_length. apply Hl. right. assumption.
Qed.

Lemma np_delete_nat {A} (v : list A) ex : (forall e, In e ex -> (e < length v)%nat) -> np_delete v (map Z.of_nat ex) = Ok (delete_at 0 ex v).
Proof.
  intros H. unfold np_delete. rewrite (mapM_ok _ Z.to_nat).
  - rewrite map_map. rewrite (map_ext _ (fun x => x)) by (intros; apply Nat2Z.id). rewrite map_id. reflexivity.
  - intros z Hz. apply in_map_iff in Hz as (e & <- & He). specialize (H e He). unfold np_index.
    destruct (Z.leb_spec 0 (Z.of_nat e)); [|lia]. destruct (Z.ltb_spec (Z.of_nat e) (Z.of_nat (length v))); [|lia]. reflexivity.
Qed.

Lemma delete_at_length {A} (v : list A) off ex : Sorted lt ex -> (forall e, In e ex -> (off <= e < off + length v)%nat) -> (length (delete_at off ex v) + length ex = length v)%nat.
Proof.
  revert off ex; induction v as [|x v IH]; intros off ex Hs He; cbn [delete_at length].
  - destruct ex as [|e t]; [reflexivity|]. specialize (He e (or_introl eq_refl)). cbn in He. lia.
  - destruct ex as [|e t].
    + cbn [existsb length]. rewrite delete_at_nil. cbn. lia.
    + assert (St : StronglySorted lt (e :: t)) by (apply Sorted_StronglySorted; [intros a b c; lia|assumption]). inversion St as [|? ? _ HF]; subst. rewrite Forall_forall in HF.
      inversion Hs; subst. destruct (Nat.eq_dec off e) as [->|N].
      * cbn [existsb]. rewrite Nat.eqb_refl. cbn [orb]. rewrite (delete_ext (S e) (e :: t) t).
        -- cbn [length]. rewrite <- (IH (S e) t); [lia|assumption|]. intros e' He'. specialize (HF e' He'). specialize (He e' (or_intror He')). cbn in He. lia.
        -- intros i Hi. cbn [existsb]. destruct (Nat.eqb_spec i e); [lia|reflexivity].
      * assert (Ho : (off < e)%nat) by (specialize (He e (or_introl eq_refl)); lia).
        rewrite existsb_lt by (intros e' [<-|H']; [assumption|specialize (HF e' H'); lia]). cbn [length].
        rewrite <- (IH (S off) (e :: t)); [cbn [length]; lia|assumption|].
        intros e' He'. specialize (He e' He'). cbn in He. assert (off <> e') by (destruct He' as [<-|H']; [lia|specialize (HF e' H'); lia]). lia.
Qed.

Lemma params_round_trip fixed ex N_K v : length fixed = 8%nat -> Sorted lt ex -> (forall e, In e ex -> (e < 8)%nat) ->
  (3 <= N_K)%nat -> length v = (5 + N_K)%nat ->
  exists p w, np_delete v (map Z.of_nat ex) = Ok p /\ (length p = 5 + N_K - length ex)%nat /\
    params_complete fixed (map Z.of_nat ex) N_K p = Ok w /\ length w = (5 + N_K)%nat /\
    forall i, (i < 5 + N_K)%nat -> nth i w 0 = if existsb (Nat.eqb i) ex then nth i fixed 0 else nth i v 0.
Proof.
  intros Hf Hs Hex HN Hv.
  assert (Hlt : forall e, In e ex -> (e < length v)%nat) by (intros e He; specialize (Hex e He); lia).
  assert (HL : (length (delete_at 0 ex v) + length ex = length v)%nat) by (apply delete_at_length; [assumption|intros e He; specialize (Hlt e He); lia]).
  exists (delete_at 0 ex v), (overwrite fixed ex 0 v).
  split; [apply np_delete_nat; assumption|]. split; [lia|]. split.
  - destruct ex as [|e t].
    + rewrite delete_at_nil, overwrite_nil. destruct fixed as [|f0 [|f1 [|f2 [|f3 [|f4 [|f5 [|f6 [|f7 [|? ?]]]]]]]]]; cbn in Hf; try lia.
      unfold params_complete. rewrite (proj2 (Nat.eqb_eq _ _) Hv). reflexivity.
    + rewrite params_complete_fold; [apply complete_spec; assumption|assumption|assumption|]. cbn [length] in HL. lia.
  - split; [rewrite overwrite_length; assumption|]. intros i Hi. rewrite overwrite_nth by lia. reflexivity.
Qed.

(** C36. *)
Lemma delete_beyond ex off (v : list R) : (forall e, In e ex -> (e < off)%nat) -> delete_at off ex v = v.
Proof.
  revert off. induction v as [|x v IH]; intros off H; [reflexivity|]. cbn [delete_at].
  assert (E : existsb (Nat.eqb off) ex = false). { apply not_true_is_false. intros E. apply existsb_exists in E as (e & He & Q). apply Nat.eqb_eq in Q. specialize (H e He). lia. }
  rewrite E, IH; [reflexivity|]. intros e He. specialize (H e He). lia.
Qed.
Ltac eight fixed Hf := destruct fixed as [|f0 [|f1 [|f2 [|f3 [|f4 [|f5 [|f6 [|f7 [|? ?]]]]]]]]]; cbn in Hf; try lia.
Lemma unsorted_two fixed N_K v i j : length fixed = 8%nat -> (3 <= N_K)%nat -> length v = (5 + N_K)%nat -> (j < i < 8)%nat -> exists p, np_delete v [Z.of_nat i; Z.of_nat j] = Ok p /\
  ((i + 2 <= length v)%nat -> exists w, params_complete fixed [Z.of_nat i; Z.of_nat j] N_K p = Ok w /\ length w = length v /\ nth i w 0 = nth (S i) v 0 /\ nth (S i) w 0 = nth i fixed 0) /\
  ((length v < i + 2)%nat -> params_complete fixed [Z.of_nat i; Z.of_nat j] N_K p = Err IndexError).
Proof.
  intros Hf HN Hv Hij. exists (delete_at 0 [i; j] v). split.
  { change [Z.of_nat i; Z.of_nat j] with (map Z.of_nat [i; j]). apply np_delete_nat. intros e [<-|[<-|[]]]; lia. }
  eight fixed Hf. clear Hf. unfold params_complete.
  destruct v as [|v0 [|v1 [|v2 [|v3 [|v4 [|v5 [|v6 [|v7 t]]]]]]]]; cbn in Hv; try lia.
  assert (Ht : (length t = N_K - 3)%nat) by lia.
  assert (B : forall e, In e [i; j] -> (e < 8)%nat) by (intros e [<-|[<-|[]]]; lia).
  do 7 (destruct i as [|i]; [try lia; destruct j as [|[|[|[|[|[|[|j]]]]]]]; try lia; cbn [delete_at existsb Nat.eqb orb]; rewrite delete_beyond by exact B; cbn [length];
    (replace (Nat.eqb _ (5 + N_K)) with false by (symmetry; apply Nat.eqb_neq; lia)); cbn [fold_left bind Z.of_nat Pos.of_succ_nat Pos.succ np_insert Nat.leb length firstn skipn app];
    (split; [intros _; eexists; split; [reflexivity|]; cbn; repeat split; lia|cbn [length]; lia])|]).
  destruct i; [|lia]. destruct j as [|[|[|[|[|[|[|j]]]]]]]; try lia; cbn [delete_at existsb Nat.eqb orb]; rewrite delete_beyond by exact B; cbn [length];
    (replace (Nat.eqb _ (5 + N_K)) with false by (symmetry; apply Nat.eqb_neq; lia)); (destruct t as [|v8 t]; cbn [length]; (split; intros H; [|]); try lia; [reflexivity|]);
    (eexists; split; [reflexivity|]; cbn; repeat split; lia).
Qed.
Lemma repeated_one fixed N_K v i : length fixed = 8%nat -> (3 <= N_K)%nat -> length v = (5 + N_K)%nat -> (i < 8)%nat -> exists p, np_delete v [Z.of_nat i; Z.of_nat i] = Ok p /\
  exists w, params_complete fixed [Z.of_nat i; Z.of_nat i] N_K p = Ok w /\ length w = S (length v).
Proof.
  intros Hf HN Hv Hi. exists (delete_at 0 [i; i] v). split.
  { change [Z.of_nat i; Z.of_nat i] with (map Z.of_nat [i; i]). apply np_delete_nat. intros e [<-|[<-|[]]]; lia. }
  eight fixed Hf. clear Hf. unfold params_complete.
  destruct v as [|v0 [|v1 [|v2 [|v3 [|v4 [|v5 [|v6 [|v7 t]]]]]]]]; cbn in Hv; try lia.
  assert (Ht : (length t = N_K - 3)%nat) by lia.
  assert (B : forall e, In e [i; i] -> (e < 8)%nat) by (intros e [<-|[<-|[]]]; lia).
  do 8 (destruct i as [|i]; [cbn [delete_at existsb Nat.eqb orb]; rewrite delete_beyond by exact B; cbn [length];
    (replace (Nat.eqb _ (5 + N_K)) with false by (symmetry; apply Nat.eqb_neq; lia)); eexists; (split; [reflexivity|]); cbn; lia|]). lia.
Qed.
Lemma high_one fixed N_K v i n : length fixed = 8%nat -> (2 * N_K = (n + 1) * (n + 2))%nat -> length v = (5 + N_K)%nat -> (8 <= i < length v)%nat -> exists p, np_delete v [Z.of_nat i] = Ok p /\
  params_complete fixed [Z.of_nat i] N_K p = Ok p /\ S (length p) = length v /\ wavefront (skipn 5 p) = Err IndexError.
Proof.
  intros Hf HN Hv Hi. pose proof (delete_at_length v 0 [i] ltac:(repeat constructor) ltac:(intros e [<-|[]]; lia)) as L. cbn [length] in L.
  exists (delete_at 0 [i] v). split; [change [Z.of_nat i] with (map Z.of_nat [i]); apply np_delete_nat; intros e [<-|[]]; lia|]. split.
  - eight fixed Hf. unfold params_complete. replace (Nat.eqb _ _) with false by (symmetry; apply Nat.eqb_neq; lia). cbn [fold_left bind].
    do 8 (destruct i as [|i]; [lia|]). rewrite !Nat2Z.inj_succ. destruct (Z.of_nat i) eqn:E; [reflexivity| |lia]. unfold Z.succ. cbn [Z.add]. do 8 (destruct p as [p|p|]; try reflexivity).
  - split; [lia|]. apply wavefront_bad_api.
    + intros E. apply (f_equal (@length R)) in E. rewrite skipn_length in E. cbn [length] in E. lia.
    + intros m. rewrite skipn_length. intros E. assert ((m < n)%nat) by nia. nia.
Qed.
Lemma complete_unchanged fixed excluded N_K v : length fixed = 8%nat -> length v = (5 + N_K)%nat -> params_complete fixed excluded N_K v = Ok v.
Proof.
  intros Hf Hv. destruct fixed as [|f0 [|f1 [|f2 [|f3 [|f4 [|f5 [|f6 [|f7 [|? ?]]]]]]]]]; cbn in Hf; try lia.
  unfold params_complete. rewrite (proj2 (Nat.eqb_eq _ _) Hv). reflexivity.
Qed.
Lemma complete_bad_fixed fixed excluded N_K v : length fixed <> 8%nat -> params_complete fixed excluded N_K v = Err ValueError.
Proof. intros Hf. destruct fixed as [|f0 [|f1 [|f2 [|f3 [|f4 [|f5 [|f6 [|f7 [|? ?]]]]]]]]]; cbn in Hf; try lia; reflexivity. Qed.

Lemma residual_complete illum tel fixed excluded N_K v beam u_data v_data d_z wavel N bf : length fixed = 8%nat -> length v = (5 + N_K)%nat ->
  residual illum tel fixed excluded N_K v beam u_data v_data d_z wavel N bf = residual_true illum tel v beam u_data v_data d_z wavel N bf.
Proof. intros Hf Hv. unfold residual. rewrite complete_unchanged by assumption. reflexivity. Qed.

Lemma residual_shortened illum tel fixed ex N_K v beam u_data v_data d_z wavel N bf : length fixed = 8%nat -> Sorted lt ex ->
  (forall e, In e ex -> (e < 8)%nat) -> (3 <= N_K)%nat -> length v = (5 + N_K)%nat ->
  (forall e, In e ex -> nth e v 0 = nth e fixed 0) ->
  exists p, np_delete v (map Z.of_nat ex) = Ok p /\
  residual illum tel fixed (map Z.of_nat ex) N_K p beam u_data v_data d_z wavel N bf = residual_true illum tel v beam u_data v_data d_z wavel N bf.
Proof.
  intros Hf Hs Hex HN Hv Hfix. destruct (params_round_trip fixed ex N_K v Hf Hs Hex HN Hv) as (p & w & E1 & _ & E2 & L & H).
  exists p. split; [exact E1|]. unfold residual. rewrite E2. cbn [bind]. replace w with v; [reflexivity|].
  apply nth_ext with (d := 0) (d' := 0); [congruence|]. intros i Hi. rewrite (H i) by lia.
  destruct (existsb (Nat.eqb i) ex) eqn:E; [|reflexivity]. apply existsb_exists in E as (e & He & Ei). apply Nat.eqb_eq in Ei. subst e. apply Hfix. exact He.
Qed.
