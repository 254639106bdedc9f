(** fit_zpoly: contents of the stored files, order by order. *)
From Coq Require Import String Ascii List Sorted FunctionalExtensionality.
From Verif Require Import PyBase Num MZernike SZernike PEnum MMath PyLib MAperture MRad MCore PParams MFs MOut PFs PStr PFit SOut SFit PFit2 PFit3 PFit4.
Import ListNotations.
Open Scope R_scope.
Open Scope string_scope.
Open Scope list_scope.
Open Scope prog_scope.

Definition fit0 : fitted := {| ft_init := []; ft_x0 := []; ft_lo := []; ft_hi := [];
  ft_out := {| lo_x := []; lo_fun := []; lo_jac := []; lo_grad := [] |}; ft_sol := []; ft_res := []; ft_cov := []; ft_cor := []; ft_phase := [] |}.

Lemma all_writes_in a snrs n fl r nd : In (r, nd) (all_writes a snrs n fl) ->
  exists i, (i < length fl)%nat /\ In (r, nd) (order_writes a snrs (n + i) (nth i fl fit0)).
Proof.
  revert n. induction fl as [|f t IH]; intros n H; [destruct H|]. cbn [all_writes] in H. apply in_app_or in H.
  destruct H as [H|H].
  - exists O. rewrite Nat.add_0_r. simpl. split; [lia|exact H].
  - apply IH in H. destruct H as (i & Hi & H). exists (S i). simpl. split; [lia|].
    replace (n + S i)%nat with (S (n + i)) by lia. exact H.
Qed.
Lemma all_writes_in_conv a snrs n fl i r nd : (i < length fl)%nat ->
  In (r, nd) (order_writes a snrs (n + i) (nth i fl fit0)) -> In (r, nd) (all_writes a snrs n fl).
Proof.
  revert n i. induction fl as [|f t IH]; intros n i Hi H; simpl in Hi; [lia|]. cbn [all_writes]. apply in_or_app.
  destruct i as [|i].
  - left. rewrite Nat.add_0_r in H. exact H.
  - right. apply (IH (S n) i); [lia|]. replace (S n + i)%nat with (n + S i)%nat by lia. exact H.
Qed.
Lemma all_writes_lookup d s a snrs n fl i r nd : (i < length fl)%nat -> r <> ["plots"] ->
  In (r, nd) (order_writes a snrs (n + i) (nth i fl fit0)) ->
  apply_writes s (map (under d) (all_writes a snrs n fl)) (d ++ r) = Some nd.
Proof.
  intros Hi Hr H. apply writes_under_in; [eapply all_writes_in_conv; eauto|].
  intros m Hm. apply all_writes_in in Hm. destruct Hm as (k & Hk & Hm).
  assert (X : forall j x y, In (r, x) (order_writes a snrs (n + j) y) -> In r (rel_names (n + j) (fa_make_plots a))).
  { intros j x y Hin. rewrite <- (order_writes_names a snrs (n + j) y). apply in_map_iff. exists (r, x). auto. }
  destruct (Nat.eq_dec i k) as [->|Hne].
  - eapply nodup_fst_unique; [|exact Hm|exact H]. rewrite order_writes_names. apply rel_names_nodup.
  - exfalso. apply Hr. eapply (rel_disjoint (n + i) (n + k)); [lia|eapply X; eauto|eapply X; eauto].
Qed.

Lemma chain_nth orc a c n prev fl i : chain orc a c n prev fl -> (i < length fl)%nat ->
  fitted_ok orc a c (n + i) (nth i fl fit0) /\
  ft_init (nth i fl fit0) = start_of a c (n + i) (match i with O => prev | S k => ft_sol (nth k fl fit0) end).
Proof.
  revert n prev i. induction fl as [|f t IH]; intros n prev i H Hi; simpl in Hi; [lia|].
  cbn [chain] in H. destruct H as (H1 & H2 & H3). destruct i as [|i].
  - rewrite Nat.add_0_r. simpl. auto.
  - replace (n + S i)%nat with (S n + i)%nat by lia. destruct (IH (S n) (ft_sol f) i H3) as [G1 G2]; [lia|].
    split; [exact G1|]. cbn [nth]. rewrite G2. destruct i; reflexivity.
Qed.

(** Everything stored by a run in a fresh directory. *)
Lemma fit_contents orc a s s' : wf s -> run (fit_zpoly orc a) s = (Ok tt, s') -> free_number a s ->
  exists c j snrs fl,
    run (load_config (fa_config_file a)) s = (Ok c, s) /\ snr_values orc a = Ok snrs /\
    (j <= 100)%nat /\ s (numbered (fit_dir a) (fa_name a) j) = None /\ length fl = fa_order_max a /\
    forall n, (1 <= n <= fa_order_max a)%nat ->
      let f := nth (n - 1) fl fit0 in
      fitted_ok orc a c n f /\
      ft_init f = start_of a c n (match n with S (S k) => ft_sol (nth k fl fit0) | _ => [] end) /\
      forall r nd, r <> ["plots"] -> In (r, nd) (order_writes a snrs n f) -> s' (numbered (fit_dir a) (fa_name a) j ++ r) = Some nd.
Proof.
  intros W H Hfree. destruct (fit_post _ _ _ _ W Hfree H) as (c & j & snrs & fl & s1 & Hc & Hsnr & Hj & Hn & Hlt & Hab & Hnab & Hl & Hch & Hs').
  cbv zeta in *. exists c, j, snrs, fl. repeat match goal with |- _ /\ _ => split end; auto.
  intros n Hn1. cbv zeta. destruct (chain_nth _ _ _ _ _ _ (n - 1) Hch) as [G1 G2]; [lia|].
  replace (1 + (n - 1))%nat with n in G1, G2 by lia. split; [exact G1|]. split.
  - rewrite G2. f_equal. destruct n as [|[|k]]; [lia|reflexivity|]. replace (S (S k) - 1)%nat with (S k) by lia. reflexivity.
  - intros r nd Hr Hin. rewrite Hs'. eapply (all_writes_lookup _ _ _ _ _ _ (n - 1)); [lia|exact Hr|].
    replace (1 + (n - 1))%nat with n by lia. exact Hin.
Qed.

(** ** Names of the parameters *)
Lemma ln_list_swap n : ln_list n = map (fun '(i, j) => (j, i)) (nl_list (Z.of_nat n)).
Proof.
  unfold ln_list, nl_list. induction (range2 0 (Z.of_nat n + 1)) as [|i t IH]; [reflexivity|].
  simpl. rewrite map_app, map_map, IH. reflexivity.
Qed.
Lemma ln_list_length n : length (ln_list n) = n_coeff n.
Proof.
  rewrite ln_list_swap, map_length. pose proof (nl_list_length_nat n) as H. unfold n_coeff.
  rewrite <- H. rewrite Nat.mul_comm, Nat.div_mul; lia.
Qed.
Lemma zip3_length names sol init : length sol = length names -> length init = length names -> length (zip3 names sol init) = length names.
Proof.
  revert sol init. induction names as [|x t IH]; intros [|y sol] [|z init] H1 H2; simpl in *; try discriminate; auto.
Qed.
Lemma zip3_names names sol init : length sol = length names -> length init = length names ->
  map (fun '(nm, _, _) => nm) (zip3 names sol init) = names.
Proof.
  revert sol init. induction names as [|x t IH]; intros [|y sol] [|z init] H1 H2; simpl in *; try discriminate; auto.
  rewrite IH; auto.
Qed.
Lemma zip3_init names sol init : length sol = length names -> length init = length names ->
  map (fun '(_, _, i) => i) (zip3 names sol init) = init.
Proof.
  revert sol init. induction names as [|x t IH]; intros [|y sol] [|z init] H1 H2; simpl in *; try discriminate; auto.
  rewrite IH; auto.
Qed.

Lemma param_names_K n i l : (i <= n)%nat -> admissible (Z.of_nat i) l ->
  nth (5 + coeff_pos i l) (param_names n) "" = "K(" ^^ decZ (Z.of_nat i) ^^ ", " ^^ decZ l ^^ ")".
Proof.
  intros Hi Ha. unfold param_names. rewrite app_nth2 by (simpl; lia).
  replace (5 + coeff_pos i l - length ["i_amp"; "c_dB"; "q"; "x_0"; "y_0"])%nat with (coeff_pos i l) by (simpl; lia).
  set (g := fun '(L, N) => "K(" ^^ decZ N ^^ ", " ^^ decZ L ^^ ")").
  change (nth (coeff_pos i l) (map g (ln_list n)) "" = g (l, Z.of_nat i)).
  apply nth_error_nth. rewrite ln_list_swap, map_map.
  assert (E : nth_error (nl_list (Z.of_nat n)) (coeff_pos i l) = Some (Z.of_nat i, l)) by (apply nl_list_nth; [lia|exact Ha]).
  apply (map_nth_error (fun x : Z * Z => g (let '(i, j) := x in (j, i)))) in E. exact E.
Qed.

(** ** Excluded parameters are pinned *)
Lemma undelete ex off (x : list R) : Sorted lt ex -> (forall e, In e ex -> (off <= e < off + (length x + length ex))%nat) ->
  exists v, (length v = length x + length ex)%nat /\ delete_at off ex v = x.
Proof.
  remember (length x + length ex)%nat as L eqn:HL. revert ex off x HL. induction L as [|L IH]; intros ex off x HL Hs He.
  - destruct x, ex; simpl in HL; try lia. exists []. auto.
  - destruct ex as [|e t].
    + simpl in HL. exists x. split; [lia|]. apply delete_at_nil.
    + destruct (Nat.eq_dec e off) as [->|Hne].
      * assert (Hgt : forall e', In e' t -> (off < e')%nat).
        { intros e' H'. apply Sorted_StronglySorted in Hs; [|intros a b c; lia]. inversion Hs as [|? ? ? Hall]; subst.
          rewrite Forall_forall in Hall. apply Hall, H'. }
        destruct (IH t (S off) x) as (v & Hv1 & Hv2).
        -- simpl in HL. lia.
        -- inversion Hs; assumption.
        -- intros e' H'. specialize (He e' (or_intror H')). specialize (Hgt e' H'). simpl in HL. lia.
        -- exists (0 :: v). split; [simpl; lia|]. cbn [delete_at existsb]. rewrite Nat.eqb_refl. cbn [orb].
           rewrite <- Hv2. apply delete_ext. intros k Hk. cbn [existsb]. replace (Nat.eqb k off) with false; [reflexivity|].
           symmetry. apply Nat.eqb_neq. lia.
      * assert (Hgt : forall e', In e' (e :: t) -> (off < e')%nat).
        { intros e' [<-|H'].
          - specialize (He e (or_introl eq_refl)). lia.
          - apply Sorted_StronglySorted in Hs; [|intros a b c; lia]. inversion Hs as [|? ? ? Hall]; subst.
            rewrite Forall_forall in Hall. specialize (Hall e' H'). specialize (He e (or_introl eq_refl)). lia. }
        destruct x as [|y x].
        { exfalso. simpl in HL.
          (* all of e :: t lies in (off, off + length (e :: t)), too small for a sorted list *)
          assert (G : forall l o, Sorted lt l -> (forall k, In k l -> (o <= k)%nat) -> forall k, In k l -> exists k', In k' l /\ (o + length l <= S k')%nat).
          { induction l as [|a l IHl]; intros o Hs' Hge k Hk; [destruct Hk|].
            destruct l as [|b l']; [exists a; split; [left; reflexivity|]; specialize (Hge a (or_introl eq_refl)); simpl; lia|].
            assert (Hs2 : Sorted lt (b :: l')) by (inversion Hs'; assumption).
            destruct (IHl (S o) Hs2) with (k := b) as (k' & Hk' & Hle).
            - intros k0 Hk0. apply Sorted_StronglySorted in Hs'; [|intros x1 x2 x3; lia]. inversion Hs' as [|? ? ? Hall]; subst.
              rewrite Forall_forall in Hall. specialize (Hall k0 Hk0). specialize (Hge a (or_introl eq_refl)). lia.
            - left; reflexivity.
            - exists k'. split; [right; exact Hk'|]. simpl in *. lia. }
          destruct (G (e :: t) (S off) Hs) with (k := e) as (k' & Hk' & Hle).
          - intros k Hk. specialize (Hgt k Hk). lia.
          - left; reflexivity.
          - specialize (He k' Hk'). simpl in *. lia. }
        destruct (IH (e :: t) (S off) x) as (v & Hv1 & Hv2).
        -- simpl in *. lia.
        -- exact Hs.
        -- intros e' H'. specialize (He e' H'). specialize (Hgt e' H'). simpl in *. lia.
        -- exists (y :: v). split; [simpl in *; lia|]. cbn [delete_at].
           rewrite (existsb_lt off (e :: t) Hgt). f_equal. exact Hv2.
Qed.

Lemma delete_agree ex off (v w : list R) : length v = length w ->
  (forall i, (i < length v)%nat -> existsb (Nat.eqb (off + i)) ex = false -> nth i v 0 = nth i w 0) ->
  delete_at off ex v = delete_at off ex w.
Proof.
  revert off w. induction v as [|x v IH]; intros off [|y w] HL H; simpl in HL; try discriminate; [reflexivity|].
  cbn [delete_at]. rewrite (IH (S off) w).
  - destruct (existsb (Nat.eqb off) ex) eqn:E; [reflexivity|]. f_equal. apply (H 0%nat); [simpl; lia|]. rewrite Nat.add_0_r. exact E.
  - lia.
  - intros i Hi He. apply (H (S i)); [simpl; lia|]. rewrite <- He. f_equal. f_equal. lia.
Qed.


Lemma n_coeff_ge3 n : (1 <= n)%nat -> (3 <= n_coeff n)%nat.
Proof. intros H. unfold n_coeff. apply Nat.div_le_lower_bound; [lia|]. nia. Qed.

Lemma pinned orc a c n f ex : (1 <= n)%nat -> fitted_ok orc a c n f -> sized_answers orc ->
  cf_excluded c = map Z.of_nat ex -> Sorted lt ex -> (forall e, In e ex -> (e < 8)%nat) -> length (cf_fixed c) = 8%nat ->
  length (ft_sol f) = (5 + n_coeff n)%nat /\
  (forall e, In e ex -> nth e (ft_sol f) 0 = nth e (cf_fixed c) 0) /\
  np_delete (ft_sol f) (cf_excluded c) = Ok (lo_x (ft_out f)).
Proof.
  intros Hn (E1 & _ & _ & E4 & E5 & _ & _ & _ & L1 & L2) Hsz Hex Hs Hlt Hfix.
  rewrite ln_list_length in L1. pose proof (n_coeff_ge3 n Hn) as H3.
  assert (Hin : forall e, In e ex -> (e < length (ft_init f))%nat) by (intros e He; specialize (Hlt e He); lia).
  rewrite Hex in E1. rewrite np_delete_nat in E1 by exact Hin. apply Ok_inj in E1.
  assert (Lx : (length (lo_x (ft_out f)) + length ex = 5 + n_coeff n)%nat).
  { rewrite (Hsz _ _ _ _ _ E4). rewrite <- E1. rewrite delete_at_length; [congruence|exact Hs|]. intros e He. specialize (Hin e He). lia. }
  destruct (undelete ex 0 (lo_x (ft_out f)) Hs) as (v & Hv1 & Hv2).
  { intros e He. specialize (Hlt e He). lia. }
  destruct (params_round_trip (cf_fixed c) ex (n_coeff n) v Hfix Hs Hlt H3) as (p & w & G1 & _ & G3 & G4 & G5); [lia|].
  rewrite np_delete_nat in G1 by (intros e He; specialize (Hlt e He); lia). apply Ok_inj in G1. rewrite Hv2 in G1. subst p.
  rewrite Hex, G3 in E5. apply Ok_inj in E5. subst w.
  split; [exact G4|]. split.
  - intros e He. rewrite G5 by (specialize (Hlt e He); lia).
    replace (existsb (Nat.eqb e) ex) with true; [reflexivity|]. symmetry. apply existsb_exists. exists e. split; [exact He|apply Nat.eqb_refl].
  - rewrite Hex. rewrite np_delete_nat by (intros e He; specialize (Hlt e He); lia). f_equal.
    rewrite <- Hv2. apply delete_agree; [lia|]. intros i Hi E. rewrite G5 by lia. rewrite Nat.add_0_l in E. rewrite E. reflexivity.
Qed.
