(** write_lookup and read_lookup on the file system. *)
From Coq Require Import String Ascii List.
From Flocq Require Import Core.Raux Core.Generic_fmt Core.Round_NE.
From Verif Require Import PyBase PyLib Num MMath MFs MAct SAct SAct2 PStr PFs PAct PAct2.
Import ListNotations.
Open Scope R_scope.
Open Scope string_scope.
Open Scope list_scope.
Open Scope prog_scope.

(** Rounding. *)
Lemma rounded_nearest x : rounded x (ZnearestE x).
Proof.
  unfold rounded. destruct (Req_dec (x - IZR (Zfloor x)) (/ 2)) as [E|N].
  - right. unfold Znearest. rewrite Rcompare_Eq by assumption.
    destruct (Z.even (Zfloor x)) eqn:Ev; cbn [negb].
    + split; [|assumption]. rewrite E. apply Rabs_right. lra.
    + assert (Hc : Zceil x = (Zfloor x + 1)%Z). { apply Zceil_floor_neq. lra. }
      rewrite Hc. split; [|rewrite Z.add_1_r, Z.even_succ, <- Z.negb_even, Ev; reflexivity].
      rewrite plus_IZR. rewrite Rabs_left; lra.
  - left. apply Znearest_N_strict. assumption.
Qed.
Lemma rounded_unique x z w : rounded x z -> rounded x w -> z = w.
Proof.
  intros Hz Hw.
  assert (Hd : Rabs (IZR z - IZR w) <= 1).
  { replace (IZR z - IZR w) with ((x - IZR w) - (x - IZR z)) by ring. eapply Rle_trans; [apply Rabs_triang|]. rewrite Rabs_Ropp.
    destruct Hz as [Hz|[Hz _]], Hw as [Hw|[Hw _]]; lra. }
  rewrite <- minus_IZR, <- abs_IZR in Hd. apply le_IZR in Hd.
  assert (C : (z = w \/ z = w + 1 \/ w = z + 1)%Z) by lia. destruct C as [->|[E|E]]; [reflexivity| |]; exfalso; subst.
  - assert (T : Rabs (IZR (w + 1) - IZR w) = 1) by (rewrite <- minus_IZR; replace (w + 1 - w)%Z with 1%Z by lia; apply Rabs_R1).
    replace (IZR (w + 1) - IZR w) with ((x - IZR w) - (x - IZR (w + 1))) in T by ring.
    pose proof (Rabs_triang (x - IZR w) (- (x - IZR (w + 1)))) as Tr. rewrite Rabs_Ropp in Tr. unfold Rminus at 1 in T.
    destruct Hz as [Hz|[Hz Ez]], Hw as [Hw|[Hw Ew]]; try lra. rewrite Z.add_1_r, Z.even_succ, <- Z.negb_even, Ew in Ez. discriminate.
  - assert (T : Rabs (IZR (z + 1) - IZR z) = 1) by (rewrite <- minus_IZR; replace (z + 1 - z)%Z with 1%Z by lia; apply Rabs_R1).
    replace (IZR (z + 1) - IZR z) with ((x - IZR z) - (x - IZR (z + 1))) in T by ring.
    pose proof (Rabs_triang (x - IZR z) (- (x - IZR (z + 1)))) as Tr. rewrite Rabs_Ropp in Tr. unfold Rminus at 1 in T.
    destruct Hz as [Hz|[Hz Ez]], Hw as [Hw|[Hw Ew]]; try lra. rewrite Z.add_1_r, Z.even_succ, <- Z.negb_even, Ez in Ew. discriminate.
Qed.
Lemma nearest_lower m x : IZR m <= x -> (m <= ZnearestE x)%Z.
Proof. intros H. rewrite <- (Zrnd_IZR ZnearestE m). apply Zrnd_le; [|assumption]. apply valid_rnd_N. Qed.
Lemma nearest_upper m x : x <= IZR m -> (ZnearestE x <= m)%Z.
Proof. intros H. rewrite <- (Zrnd_IZR ZnearestE m). apply Zrnd_le; [|assumption]. apply valid_rnd_N. Qed.
Lemma rounded_IZR z : rounded (IZR z) z.
Proof. left. rewrite Rminus_diag_eq by reflexivity. rewrite Rabs_R0. lra. Qed.

(** The layout: 96 actuators. *)
Lemma outer_flat_length a b : length (outer_flat a b) = (length a * length b)%nat.
Proof. unfold outer_flat. induction a as [|x a IH]; [reflexivity|]. cbn [map concat length Nat.mul]. rewrite app_length, map_length, IH. reflexivity. Qed.
Lemma act_x_length : length act_x = 96%nat.
Proof. unfold act_x. rewrite outer_flat_length. unfold act_theta. rewrite !map_length, linspace_length. reflexivity. Qed.
Lemma act_y_length : length act_y = 96%nat.
Proof. unfold act_y. rewrite outer_flat_length. unfold act_theta. rewrite !map_length, linspace_length. reflexivity. Qed.
Lemma mapM_Forall2 {A B} (f : A -> res B) l r : mapM f l = Ok r -> Forall2 (fun x y => f x = Ok y) l r.
Proof.
  revert r. induction l as [|x l IH]; intros r H; cbn in H; [apply Ok_inj in H; subst; constructor|].
  destruct (f x) as [y|] eqn:E; [|discriminate]. cbn in H. destruct (mapM f l) as [ys|]; [|discriminate]. cbn in H.
  apply Ok_inj in H. subst. constructor; auto.
Qed.
Lemma interp_rect sp o l T : interp_surface2rings sp o l = Ok T -> rect 11 96 T.
Proof.
  intros H. unfold interp_surface2rings in H. split; [apply mapM_length in H; rewrite seq_length in H; assumption|].
  apply mapM_Forall2 in H. remember (seq 0 11) as js. clear Heqjs. induction H as [|j row js T Hj F IH]; constructor; [|assumption].
  destruct (py_get l j) as [m|]; [|discriminate]. cbn [bind] in Hj.
  destruct (sp _ _ _) as [f|]; [|discriminate]. cbn [bind] in Hj. apply Ok_inj in Hj. subst row.
  rewrite map_length, combine_length, act_x_length, act_y_length. reflexivity.
Qed.


Lemma outer_nth a b i k : (i < length a)%nat -> (k < length b)%nat ->
  nth (length b * i + k) (outer_flat a b) 0 = nth i a 0 * nth k b 0.
Proof.
  intros Hi Hk. revert i Hi. induction a as [|x a IH]; intros i Hi; [cbn in Hi; lia|].
  unfold outer_flat. cbn [map concat]. fold (outer_flat a b).
  destruct i as [|i].
  - rewrite Nat.mul_0_r, Nat.add_0_l, app_nth1 by (rewrite map_length; assumption). cbn [nth].
    rewrite (nth_indep (map (fun y => x * y) b) 0 ((fun y => x * y) 0)) by (rewrite map_length; assumption). rewrite map_nth with (f := fun y => x * y). reflexivity.
  - rewrite app_nth2 by (rewrite map_length; nia). rewrite map_length.
    replace (length b * S i + k - length b)%nat with (length b * i + k)%nat by nia. cbn [nth]. apply IH. cbn in Hi. lia.
Qed.
Lemma act_theta_nth k : (k < 24)%nat -> nth k act_theta 0 = (15 / 2 + 15 * INR k) * (PI / 180).
Proof.
  intros H. unfold act_theta. rewrite (nth_indep _ 0 (deg2rad 0)) by (rewrite map_length, linspace_length; assumption).
  rewrite map_nth, linspace_nth by assumption. unfold deg2rad. f_equal. replace (INR (24 - 1)) with 23 by (cbn; lra). field.
Qed.
Lemma act_position i k : (i < 4)%nat -> (k < 24)%nat ->
  nth (24 * i + k) act_x 0 = ring_radius i * cos (ring_angle k) /\ nth (24 * i + k) act_y 0 = ring_radius i * sin (ring_angle k).
Proof.
  intros Hi Hk. assert (L : length act_theta = 24%nat) by (unfold act_theta; rewrite map_length, linspace_length; reflexivity).
  split.
  - unfold act_x. replace (24 * i + k)%nat with (length (map cos act_theta) * i + k)%nat by (rewrite map_length, L; reflexivity).
    rewrite outer_nth by (rewrite ?map_length, ?L; assumption). f_equal.
    rewrite (nth_indep _ 0 (cos 0)) by (rewrite map_length, L; assumption). rewrite map_nth, act_theta_nth by assumption. reflexivity.
  - unfold act_y. replace (24 * i + k)%nat with (length (map sin act_theta) * i + k)%nat by (rewrite map_length, L; reflexivity).
    rewrite outer_nth by (rewrite ?map_length, ?L; assumption). f_equal.
    rewrite (nth_indep _ 0 (sin 0)) by (rewrite map_length, L; assumption). rewrite map_nth, act_theta_nth by assumption. reflexivity.
Qed.
Lemma Forall2_build {A B} (P : A -> B -> Prop) d e : forall l r, length l = length r -> (forall i, (i < length l)%nat -> P (nth i l d) (nth i r e)) -> Forall2 P l r.
Proof.
  induction l as [|x l IH]; intros [|y r] L H; try discriminate; constructor; [exact (H 0%nat ltac:(cbn; lia))|]. apply IH; [cbn in L; lia|]. intros i Hi. exact (H (S i) ltac:(cbn; lia)).
Qed.
Lemma Forall2_mapM {A B} (f : A -> res B) l r : Forall2 (fun x y => f x = Ok y) l r -> mapM f l = Ok r.
Proof. induction 1 as [|x y l r E F IH]; [reflexivity|]. cbn. rewrite E. cbn [bind]. rewrite IH. reflexivity. Qed.
Lemma Forall2_at' {A B} (P : A -> B -> Prop) d e l r i : Forall2 P l r -> (i < length l)%nat -> P (nth i l d) (nth i r e).
Proof. intros F. revert i. induction F; intros [|i] Hi; cbn in *; try lia; [assumption|]. apply IHF. lia. Qed.
Lemma actuator_row (f : R -> R -> num) n : (n < 96)%nat -> nth n (map (fun '(ax, ay) => f (ax * 1000) (ay * 1000)) (combine act_x act_y)) NaN = f (nth n act_x 0 * 1000) (nth n act_y 0 * 1000).
Proof.
  intros H. rewrite (nth_indep _ NaN (f (0 * 1000) (0 * 1000))) by (rewrite map_length, combine_length, act_x_length, act_y_length; exact H).
  change (f (0 * 1000) (0 * 1000)) with ((fun '(ax, ay) => f (ax * 1000) (ay * 1000)) (0, 0)). rewrite map_nth. rewrite combine_nth by (rewrite act_x_length, act_y_length; reflexivity). reflexivity.
Qed.
Lemma interp_iff sp o l T : interp_surface2rings sp o l = Ok T <-> over_actuators sp o l T.
Proof.
  split.
  - intros H. split; [exact (interp_rect _ _ _ _ H)|]. intros j Hj. unfold interp_surface2rings in H. apply mapM_Forall2 in H.
    apply (Forall2_at' _ 0%nat [] _ _ j) in H; [|rewrite seq_length; exact Hj]. rewrite seq_nth in H by exact Hj. cbn [Nat.add] in H. unfold py_get in H.
    destruct (nth_error l j) as [m|]; [|discriminate]. cbn [bind] in H. destruct (sp _ _ _) as [f|] eqn:Ef; [|discriminate]. cbn [bind] in H. apply Ok_inj in H.
    exists m, f. split; [reflexivity|]. split; [exact Ef|]. intros i k Hi Hk. unfold elem. rewrite <- H. rewrite actuator_row by lia. destruct (act_position i k Hi Hk) as [-> ->]. reflexivity.
  - intros [[LT RT] H]. unfold interp_surface2rings. cbv zeta. apply Forall2_mapM, (Forall2_build _ 0%nat []); [rewrite seq_length; symmetry; exact LT|]. intros j Hj. rewrite seq_length in Hj. rewrite seq_nth by exact Hj. cbn [Nat.add].
    destruct (H j Hj) as (m & f & Em & Ef & Hf). unfold py_get. rewrite Em. cbn [bind]. rewrite Ef. cbn [bind]. f_equal.
    assert (Lr : length (nth j T []) = 96%nat) by (apply (rect_row 11 96); [split; assumption|exact Hj]).
    apply (nth_ext _ _ NaN NaN); [rewrite map_length, combine_length, act_x_length, act_y_length, Lr; reflexivity|]. intros n Hn. rewrite map_length, combine_length, act_x_length, act_y_length in Hn. change (Nat.min 96 96) with 96%nat in Hn.
    rewrite actuator_row by exact Hn. pose proof (Nat.div_mod n 24 ltac:(lia)) as D. pose proof (Nat.mod_upper_bound n 24 ltac:(lia)) as M. assert (n / 24 < 4)%nat by (apply Nat.div_lt_upper_bound; lia).
    rewrite D. destruct (act_position (n / 24) (n mod 24) ltac:(assumption) M) as [-> ->]. symmetry. apply Hf; assumption.
Qed.

Lemma written_between o T j k : ac_min o <= ac_max o -> rect 11 96 T -> (j < 11)%nat -> (k < 96)%nat ->
  written (map2d (limit (ac_min o) (ac_max o)) T) j k = np_int (between (ac_min o) (ac_max o) (elem NaN T j k)).
Proof.
  intros Hl H Hj Hk. unfold written. rewrite (elem_map2d' _ NaN NaN 11 96) by assumption. rewrite limit_between by assumption. reflexivity.
Qed.

Lemma table_line_ext k f g : (forall j, (j < 11)%nat -> f j = g j) -> table_line k (map f (seq 0 11)) = table_line k (map g (seq 0 11)).
Proof. intros H. f_equal. apply map_ext_in. intros j Hj. apply H. apply in_seq in Hj. lia. Qed.
Lemma table_text_ext z w : (forall j k, (j < 11)%nat -> (k < 96)%nat -> z j k = w j k) -> table_text z = table_text w.
Proof.
  intros H. unfold table_text. f_equal. f_equal. apply map_ext_in. intros k Hk. apply in_seq in Hk.
  apply table_line_ext. intros j Hj. apply H; lia.
Qed.

Lemma write_lookup_run sp o fname a T s : lookup_input sp o a T -> rect 11 96 T -> ac_min o <= ac_max o ->
  run (write_lookup sp o fname a) s =
  match fst (exec (OpenW fname) s) with
  | Err e => (Err e, s)
  | Ok _ => (Ok tt, upd s fname (File (Text (table_text (fun j k => np_int (between (ac_min o) (ac_max o) (elem NaN T j k)))))))
  end.
Proof.
  intros Hi HT Hl. unfold write_lookup.
  assert (E : (match a with Map3 l => interp_surface2rings sp o l | Map2 m => Ok m end) = Ok T).
  { destruct a; cbn [lookup_input] in Hi; [subst; reflexivity|apply interp_iff; assumption]. }
  rewrite E. cbn [lift bindP]. rewrite lookup_text_ok by (apply rect_map2d; assumption).
  rewrite (table_text_ext _ (fun j k => np_int (between (ac_min o) (ac_max o) (elem NaN T j k)))) by (intros; apply written_between; assumption).
  set (txt := table_text _). clearbody txt.
  rewrite run_bind, run_callE. cbn [exec].
  destruct (s fname) as [[|d]|] eqn:Ef; cbn [fst].
  - reflexivity.
  - rewrite run_bind, run_call. cbn [exec fst snd]. rewrite upd_same. cbn [lift run]. rewrite upd_upd. reflexivity.
  - destruct (s (parent fname)) as [[|d]|] eqn:Ep; cbn [fst]; [|reflexivity|reflexivity].
    rewrite run_bind, run_call. cbn [exec fst snd]. rewrite upd_same. cbn [lift run]. rewrite upd_upd. reflexivity.
Qed.

Lemma read_lookup_run fname z s : s fname = Some (File (Text (table_text z))) ->
  run (read_lookup_plain fname) s = (Ok (alpha_lookup, map (fun j => map (fun k => IZR (z j k)) (seq 0 96)) (seq 0 11)), s).
Proof.
  intros H. unfold read_lookup_plain, read_text. rewrite !run_bind, run_callE. cbn [exec]. rewrite H. cbn [run].
  rewrite run_lift. rewrite lookup_of_text. cbn [bind]. rewrite assign_columns. reflexivity.
Qed.

Lemma run_write_inv sp o fname a T s s' : lookup_input sp o a T -> rect 11 96 T -> ac_min o <= ac_max o ->
  run (write_lookup sp o fname a) s = (Ok tt, s') ->
  s' = upd s fname (File (Text (table_text (fun j k => np_int (between (ac_min o) (ac_max o) (elem NaN T j k)))))).
Proof.
  intros Hi HT Hl H. rewrite (write_lookup_run sp o fname a T) in H by assumption.
  destruct (fst (exec (OpenW fname) s)); inversion H. reflexivity.
Qed.

(** C53, second half. *)
Lemma written_limits sp o fname a T s s' : lookup_input sp o a T -> rect 11 96 T -> ac_min o <= ac_max o ->
  (forall j k, (j < 11)%nat -> (k < 96)%nat -> elem NaN T j k <> NaN) ->
  run (write_lookup sp o fname a) s = (Ok tt, s') ->
  exists z, s' fname = Some (File (Text (table_text z))) /\
    forall j k, (j < 11)%nat -> (k < 96)%nat ->
      (forall m, IZR m <= ac_min o -> (m <= z j k)%Z) /\ (forall m, ac_max o <= IZR m -> (z j k <= m)%Z).
Proof.
  intros Hi HT Hl Hn H. apply (run_write_inv sp o fname a T) in H; [|assumption..]. subst s'.
  eexists. split; [apply upd_same|]. intros j k Hj Hk. cbv beta.
  pose proof (between_bounds (ac_min o) (ac_max o) (elem NaN T j k) Hl) as B. pose proof (Hn j k Hj Hk) as N.
  destruct (between (ac_min o) (ac_max o) (elem NaN T j k)) as [t| | |]; try contradiction.
  split; intros m Hm; cbn [np_int]; [apply nearest_lower|apply nearest_upper]; lra.
Qed.

(** C54. *)
Lemma write_read sp o fname T s s' : rect 11 96 T -> ac_min o <= ac_max o ->
  run (write_lookup sp o fname (Map2 T)) s = (Ok tt, s') ->
  exists table, run (read_lookup_plain fname) s' = (Ok (alpha_lookup, table), s') /\ rect 11 96 table /\
    forall j k x, (j < 11)%nat -> (k < 96)%nat -> elem NaN T j k = Fin x ->
      exists z, elem 0 table j k = IZR z /\ rounded (Rmax (ac_min o) (Rmin (ac_max o) x)) z.
Proof.
  intros HT Hl H. apply (run_write_inv sp o fname (Map2 T) T) in H; [|reflexivity|assumption..]. subst s'.
  eexists. split; [apply read_lookup_run; apply upd_same|]. split.
  - split; [rewrite map_length, seq_length; reflexivity|]. rewrite Forall_map, Forall_forall. intros j _. rewrite map_length, seq_length. reflexivity.
  - intros j k x Hj Hk Hx. unfold elem at 1.
    set (f := fun j => map (fun k => IZR (np_int (between (ac_min o) (ac_max o) (elem NaN T j k)))) (seq 0 96)).
    rewrite (nth_indep (map f (seq 0 11)) [] (f 0%nat)) by (rewrite map_length, seq_length; assumption).
    rewrite map_nth, seq_nth by assumption. subst f. cbv beta.
    set (g := fun k => IZR (np_int (between (ac_min o) (ac_max o) (elem NaN T (0 + j) k)))).
    rewrite (nth_indep (map g (seq 0 96)) 0 (g 0%nat)) by (rewrite map_length, seq_length; assumption).
    rewrite map_nth, seq_nth by assumption. subst g. cbv beta. cbn [Nat.add]. rewrite Hx. cbn [between np_int].
    eexists. split; [reflexivity|]. apply rounded_nearest.
Qed.
Lemma write_read_exact sp o fname (z : nat -> nat -> Z) s s' : ac_min o <= ac_max o ->
  (forall j k, (j < 11)%nat -> (k < 96)%nat -> ac_min o <= IZR (z j k) <= ac_max o) ->
  run (write_lookup sp o fname (Map2 (map (fun j => map (fun k => Fin (IZR (z j k))) (seq 0 96)) (seq 0 11)))) s = (Ok tt, s') ->
  run (read_lookup_plain fname) s' = (Ok (alpha_lookup, map (fun j => map (fun k => IZR (z j k)) (seq 0 96)) (seq 0 11)), s').
Proof.
  intros Hl Hz H. set (T := map _ _) in H.
  assert (HT : rect 11 96 T). { split; [subst T; rewrite map_length, seq_length; reflexivity|]. subst T. rewrite Forall_map, Forall_forall. intros j _. rewrite map_length, seq_length. reflexivity. }
  apply (run_write_inv sp o fname (Map2 T) T) in H; [|reflexivity|assumption..]. subst s'.
  apply read_lookup_run. rewrite upd_same. do 3 f_equal. apply table_text_ext. intros j k Hj Hk.
  assert (E : elem NaN T j k = Fin (IZR (z j k))).
  { unfold elem, T. set (f := fun j => map (fun k => Fin (IZR (z j k))) (seq 0 96)).
    rewrite (nth_indep (map f (seq 0 11)) [] (f 0%nat)) by (rewrite map_length, seq_length; assumption).
    rewrite map_nth, seq_nth by assumption. subst f. cbv beta. cbn [Nat.add].
    set (g := fun k => Fin (IZR (z j k))).
    rewrite (nth_indep (map g (seq 0 96)) NaN (g 0%nat)) by (rewrite map_length, seq_length; assumption).
    rewrite map_nth, seq_nth by assumption. reflexivity. }
  rewrite E, between_inside by auto. cbn [np_int]. apply (Zrnd_IZR ZnearestE).
Qed.
