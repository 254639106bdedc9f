(** C79: from the simulator through the file to the residual. *)
From Coq Require Import String Ascii List.
From Verif Require Import PyBase PyLib Num MZernike MMath SMath MAperture MRad MFs MAct MAux MSim MCore SAux SSim SFit SOut SCore PNorm PRad PResid PAux PSim PSim2 PSim3 PFs.
From Coquelicot Require Import Complex.
Import ListNotations.
Open Scope R_scope.
Open Scope list_scope.

(** * Small changes of the data *)
Definition close (e : R) (d m : list R) : Prop := Forall2 (fun x y => Rabs (x - y) <= e) d m.

Lemma close_length e d m : close e d m -> length d = length m.
Proof. induction 1; cbn [length]; congruence. Qed.
Lemma close_in1 e d m x : close e d m -> In x d -> exists y, In y m /\ Rabs (x - y) <= e.
Proof. induction 1 as [|a b d m H F IH]; intros X; [destruct X|]. destruct X as [->|X]; [exists b; split; [left; reflexivity|exact H]|]. destruct (IH X) as (y & Y & Z). exists y. split; [right; exact Y|exact Z]. Qed.
Lemma close_in2 e d m y : close e d m -> In y m -> exists x, In x d /\ Rabs (x - y) <= e.
Proof. induction 1 as [|a b d m H F IH]; intros X; [destruct X|]. destruct X as [->|X]; [exists a; split; [left; reflexivity|exact H]|]. destruct (IH X) as (x & Y & Z). exists x. split; [right; exact Y|exact Z]. Qed.

Lemma in_map2 {A B C} (f : A -> B -> C) l1 l2 z : In z (map2 f l1 l2) -> exists x y, In (x, y) (combine l1 l2) /\ z = f x y.
Proof.
  revert l2. induction l1 as [|a l1 IH]; intros [|b l2]; cbn [map2]; try contradiction. intros [<-|Z].
  - exists a, b. split; [left; reflexivity|reflexivity].
  - destruct (IH l2 Z) as (x & y & I & E). exists x, y. split; [right; exact I|exact E].
Qed.
Lemma in_combine_map {A B C D} (f : A -> B) (g : C -> D) l1 l2 x y : In (x, y) (combine (map f l1) (map g l2)) -> exists a c, In (a, c) (combine l1 l2) /\ x = f a /\ y = g c.
Proof.
  revert l2. induction l1 as [|a l1 IH]; intros [|c l2]; cbn [map combine]; try contradiction. intros [E|Z].
  - injection E as <- <-. exists a, c. split; [left; reflexivity|split; reflexivity].
  - destruct (IH l2 Z) as (u & v & I & E). exists u, v. split; [right; exact I|exact E].
Qed.
Lemma close_combine e d m x y : close e d m -> In (x, y) (combine d m) -> Rabs (x - y) <= e.
Proof. induction 1 as [|a b d m H F IH]; cbn [combine]; intros X; [destruct X|]. destruct X as [E|X]; [injection E as <- <-; exact H|exact (IH X)]. Qed.

Lemma norm_close e D d m qd qm : 0 < D -> close e d m -> (exists a b, In a m /\ In b m /\ D <= b - a) ->
  norm_all (map Fin d) = Ok qd -> norm_all (map Fin m) = Ok qm ->
  length qd = length d /\ length qm = length d /\ forall x, In x (map2 Rminus qd qm) -> Rabs x <= 4 * e / D.
Proof.
  intros HD HC (a & b & Ia & Ib & HDab) Ed Em. pose proof (close_length _ _ _ HC) as HL.
  destruct (norm_onto m a b Ia Ib ltac:(lra)) as (mn & mx & I1 & I2 & HM & B & E). rewrite E in Em. apply Ok_inj in Em. subst qm.
  assert (Hd : d <> []) by (destruct d; [destruct m; [destruct Ia|discriminate]|congruence]).
  destruct (norm_finite d Hd) as (mn' & mx' & J1 & J2 & B' & E'). rewrite E' in Ed. apply Ok_inj in Ed. subst qd.
  rewrite !map_length. split; [reflexivity|split; [symmetry; exact HL|]].
  intros z Hz. apply in_map2 in Hz as (x & y & Hxy & ->). apply in_combine_map in Hxy as (p & q & Hpq & -> & ->).
  pose proof (close_combine e d m p q HC Hpq) as Hc. pose proof (in_combine_l _ _ _ _ Hpq) as Ip. pose proof (in_combine_r _ _ _ _ Hpq) as Iq.
  pose proof (B q Iq) as Bq. pose proof (B' p Ip) as Bp.
  assert (He : 0 <= e) by (pose proof (Rabs_pos (p - q)); lra).
  assert (HDm : D <= mx - mn) by (pose proof (B a Ia); pose proof (B b Ib); lra).
  assert (Hmn : Rabs (mn' - mn) <= e).
  { destruct (close_in1 e d m mn' HC J1) as (y & Y & Hy). destruct (close_in2 e d m mn HC I1) as (x & X & Hx).
    pose proof (B y Y). pose proof (B' x X). apply Rabs_le_iff. apply Rabs_le_iff in Hy. apply Rabs_le_iff in Hx. lra. }
  assert (Hmx : Rabs (mx' - mx) <= e).
  { destruct (close_in1 e d m mx' HC J2) as (y & Y & Hy). destruct (close_in2 e d m mx HC I2) as (x & X & Hx).
    pose proof (B y Y). pose proof (B' x X). apply Rabs_le_iff. apply Rabs_le_iff in Hy. apply Rabs_le_iff in Hx. lra. }
  apply Rabs_le_iff in Hc. apply Rabs_le_iff in Hmn. apply Rabs_le_iff in Hmx.
  set (w := (q - mn) / (mx - mn)). set (k := 4 * e / D).
  assert (Hw : w * (mx - mn) = q - mn) by (unfold w; field; lra).
  assert (Hk : k * D = 4 * e) by (unfold k; field; lra).
  assert (Hk0 : 0 <= k) by (unfold k; apply Rmult_le_pos; [lra|apply Rlt_le, Rinv_0_lt_compat; exact HD]).
  assert (Hw0 : 0 <= w <= 1) by (split; nra).
  assert (HkD : 4 * e <= k * (mx - mn)) by nra.
  apply Rabs_le_iff. destruct (Req_EM_T mn' mx') as [Eq|Nq].
  - assert (1 <= k) by nra. lra.
  - set (w' := (p - mn') / (mx' - mn')). assert (Hw' : w' * (mx' - mn') = p - mn') by (unfold w'; field; lra).
    assert (Hw'0 : 0 <= w' <= 1).
    { assert (mn' < mx') by lra. split.
      - unfold w'. apply Rmult_le_pos; [lra|apply Rlt_le, Rinv_0_lt_compat; lra].
      - unfold w'. apply (Rmult_le_reg_r (mx' - mn')); [lra|]. unfold Rdiv. rewrite Rmult_assoc, Rinv_l by lra. lra. }
    (* (w' - w) (mx - mn) = (p - mn') - (q - mn) + w' ((mx - mn) - (mx' - mn')) *)
    assert (Hid : (w' - w) * (mx - mn) = (p - mn') - (q - mn) + w' * ((mx - mn) - (mx' - mn'))) by (rewrite Rmult_minus_distr_r, Hw; rewrite <- Hw'; ring).
    assert (Hb1 : - (2 * e) <= (p - mn') - (q - mn) <= 2 * e) by lra.
    assert (Hb2 : - (2 * e) <= w' * ((mx - mn) - (mx' - mn')) <= 2 * e).
    { assert (- (2 * e) <= (mx - mn) - (mx' - mn') <= 2 * e) by lra. split; nra. }
    assert (Hb : - (k * (mx - mn)) <= (w' - w) * (mx - mn) <= k * (mx - mn)) by lra.
    split; apply (Rmult_le_reg_r (mx - mn)); lra.
Qed.

Lemma map2_length {A B C} (f : A -> B -> C) l1 l2 : length l1 = length l2 -> length (map2 f l1 l2) = length l1.
Proof. revert l2. induction l1 as [|a l1 IH]; intros [|b l2]; cbn [map2 length]; intros H; try lia. rewrite IH; lia. Qed.

Lemma residual_close illum tel params u_data v_data d_z wavel N bf e D m0 m1 m2 d0 d1 d2 : 0 < D ->
  model_row illum tel params u_data v_data d_z wavel N bf 0 = Ok m0 -> model_row illum tel params u_data v_data d_z wavel N bf 1 = Ok m1 ->
  model_row illum tel params u_data v_data d_z wavel N bf 2 = Ok m2 ->
  close e d0 m0 -> close e d1 m1 -> close e d2 m2 ->
  (forall m, In m [m0; m1; m2] -> exists a b, In a m /\ In b m /\ D <= b - a) ->
  exists r, residual_true illum tel params [map Fin d0; map Fin d1; map Fin d2] u_data v_data d_z wavel N bf = Ok r /\
    length r = (length d0 + length d1 + length d2)%nat /\ forall x, In x r -> Rabs x <= 4 * e / D.
Proof.
  intros HD E0 E1 E2 C0 C1 C2 HS.
  pose proof (close_length _ _ _ C0) as L0. pose proof (close_length _ _ _ C1) as L1. pose proof (close_length _ _ _ C2) as L2.
  unfold residual_true. cbv zeta. cbn [map]. rewrite (fill3 _ _ _ _ m0 m1 m2 E0 E1 E2) by (rewrite !map_length; lia). cbn [bind].
  rewrite !norm_rows_eq. cbn [map mapM].
  pose proof (HS m0 ltac:(left; reflexivity)) as S0. pose proof (HS m1 ltac:(right; left; reflexivity)) as S1. pose proof (HS m2 ltac:(right; right; left; reflexivity)) as S2.
  assert (NE : forall d m, length d = length m -> (exists a b, In a m /\ In b m /\ D <= b - a) -> map Fin d <> [] /\ map Fin m <> []).
  { intros d m HL (a & _ & I & _). destruct m; [destruct I|]. destruct d; [discriminate|]. split; discriminate. }
  destruct (NE d0 m0 L0 S0) as [X0 Y0]. destruct (NE d1 m1 L1 S1) as [X1 Y1]. destruct (NE d2 m2 L2 S2) as [X2 Y2].
  destruct (norm_all_ok _ X0) as [p0 P0]. destruct (norm_all_ok _ X1) as [p1 P1]. destruct (norm_all_ok _ X2) as [p2 P2].
  destruct (norm_all_ok _ Y0) as [q0 Q0]. destruct (norm_all_ok _ Y1) as [q1 Q1]. destruct (norm_all_ok _ Y2) as [q2 Q2].
  rewrite P0, P1, P2, Q0, Q1, Q2. cbn [bind map2 concat]. eexists. split; [reflexivity|].
  destruct (norm_close e D _ _ _ _ HD C0 S0 P0 Q0) as (A0 & B0 & F0). destruct (norm_close e D _ _ _ _ HD C1 S1 P1 Q1) as (A1 & B1 & F1).
  destruct (norm_close e D _ _ _ _ HD C2 S2 P2 Q2) as (A2 & B2 & F2).
  split.
  - rewrite !app_length, !map2_length by congruence. cbn [length]. lia.
  - intros x Hx. rewrite !in_app_iff in Hx. destruct Hx as [X|[X|[X|[]]]]; auto.
Qed.

(** * The model at the simulated points *)
Lemma map2_block {A B C} (f : A -> B -> C) k (g : nat -> nat -> A) (h : nat -> nat -> B) : map2 f (block k g) (block k h) = block k (fun r c => f (g r c) (h r c)).
Proof.
  unfold block, rows.
  assert (G : forall cs rs, map2 f (concat (map (fun r => map (g r) cs) rs)) (concat (map (fun r => map (h r) cs) rs)) = concat (map (fun r => map (fun c => f (g r c) (h r c)) cs) rs)); [|apply G].
  intros cs rs. induction rs as [|r rs IH]; [reflexivity|]. cbn [map concat].
  rewrite <- IH. clear IH. generalize (concat (map (fun r0 => map (g r0) cs) rs)) (concat (map (fun r0 => map (h r0) cs) rs)). intros X Y.
  induction cs as [|c cs IH]; [reflexivity|]. cbn [map app map2]. rewrite IH. reflexivity.
Qed.
Lemma block_in {A} k (g : nat -> nat -> A) x : In x (block k g) <-> exists r c, (r < k)%nat /\ (c < k)%nat /\ x = g r c.
Proof.
  unfold block, rows. rewrite in_concat. split.
  - intros (l & L & X). apply in_map_iff in L as (r & <- & R). apply in_map_iff in X as (c & <- & C). apply in_seq in R, C. exists r, c. repeat split; lia.
  - intros (r & c & R & C & ->). exists (map (g r) (seq 0 k)). split; [apply in_map_iff; exists r; split; [reflexivity|apply in_seq; lia]|apply in_map_iff; exists c; split; [reflexivity|apply in_seq; lia]].
Qed.
Lemma block_ext {A} k (g h : nat -> nat -> A) : (forall r c, (r < k)%nat -> (c < k)%nat -> g r c = h r c) -> block k g = block k h.
Proof.
  intros H. unfold block, rows. f_equal. apply map_ext_in. intros r R. apply map_ext_in. intros c C. apply in_seq in R, C. apply H; lia.
Qed.
Lemma block_map {A B} (f : A -> B) k (g : nat -> nat -> A) : map f (block k g) = block k (fun r c => f (g r c)).
Proof. unfold block, rows. rewrite concat_map, map_map. f_equal. apply map_ext. intros r. rewrite map_map. reflexivity. Qed.

Lemma block_close k e (g h : nat -> nat -> R) : (forall r c, (r < k)%nat -> (c < k)%nat -> Rabs (g r c - h r c) <= e) -> close e (block k g) (block k h).
Proof.
  intros H. unfold close, block, rows.
  assert (G : forall rs, (forall r, In r rs -> (r < k)%nat) -> Forall2 (fun x y => Rabs (x - y) <= e) (concat (map (fun r => map (g r) (seq 0 k)) rs)) (concat (map (fun r => map (h r) (seq 0 k)) rs))).
  { induction rs as [|r rs IH]; intros HR; cbn [map concat]; [constructor|]. apply Forall2_app; [|apply IH; intros; apply HR; right; assumption].
    assert (K : forall cs, (forall c, In c cs -> (c < k)%nat) -> Forall2 (fun x y => Rabs (x - y) <= e) (map (g r) cs) (map (h r) cs)).
    { induction cs as [|c cs IHc]; intros HC; cbn [map]; constructor; [apply H; [apply HR; left; reflexivity|apply HC; left; reflexivity]|apply IHc; intros; apply HC; right; assumption]. }
    apply K. intros c C. apply in_seq in C. lia. }
  apply G. intros r R. apply in_seq in R. lia.
Qed.

Lemma model_at_window a z u v F i0 k xs ys zs i : physical a -> length (si_I a) = 5%nat -> beam_of a z = Ok (u, v, F) -> (i0 + k <= length u)%nat ->
  nth_error zs i = Some z -> nth_error xs i = Some (block k (fun _ c => nth (i0 + c) u 0)) -> nth_error ys i = Some (block k (fun r _ => nth (i0 + r) u 0)) ->
  model_row (si_illum a) (si_tel a) (si_I a ++ si_K a) xs ys zs (si_wavel a) (si_resolution a) (si_box_factor a) i =
  Ok (block k (fun r c => Cmod (at2 F (i0 + r) (i0 + c)) ^ 2)).
Proof.
  intros (Hw & Hp & Hb) HI HB HK Ez Ex Ey. unfold model_row. rewrite <- HI, firstn_app, firstn_all, Nat.sub_diag, firstn_O, app_nil_r, skipn_app, skipn_all, Nat.sub_diag. cbn [app skipn].
  unfold py_get. rewrite Ez, Ex, Ey. cbn [bind]. unfold beam_of in HB. rewrite HB. cbn [bind].
  destruct (axes_api _ _ _ _ _ _ _ _ _ _ _ Hw Hp Hb HB) as (<- & LU & LF & LR & LN & Hax). cbv zeta in Hax. destruct Hax as (Hs & Hax & _ & Hinc).
  assert (HN : (2 <= si_resolution a)%nat) by (apply rad_inv in HB as [G _]; exact G).
  assert (Inc : increasing u) by (intros x y [X Y]; apply Hinc; lia).
  unfold interp_points. rewrite !block_length, Nat.eqb_refl.
  assert (IB : forall j, (j < length u)%nat -> in_bounds u (nth j u 0) = true).
  { intros j J. unfold in_bounds. unfold Rleb. apply andb_true_iff. split.
    - destruct (Rle_dec (nth 0 u 0) (nth j u 0)) as [_|G]; [reflexivity|]. elim G. apply incr_le; [exact Inc|lia].
    - destruct (Rle_dec (nth j u 0) (nth (length u - 1) u 0)) as [_|G]; [reflexivity|]. elim G. apply incr_le; [exact Inc|lia]. }
  rewrite (proj2 (forallb_forall _ _)) by (intros x X; apply block_in in X as (r & c & R & C & ->); apply IB; lia).
  rewrite (proj2 (forallb_forall _ _)) by (intros x X; apply block_in in X as (r & c & R & C & ->); apply IB; lia).
  cbn [andb]. f_equal. rewrite map2_block. apply block_ext. intros r c R C.
  rewrite interp_node by (auto; lia). rewrite (power_at F _ _ (si_resolution a)); [reflexivity|exact LF|exact LR|lia|lia].
Qed.

Lemma window_pos a z u v F i0 k : physical a -> beam_of a z = Ok (u, v, F) -> window u (sim_limit a) i0 k -> (0 < k)%nat /\ (i0 + k <= length u)%nat.
Proof.
  intros HP HB (HL & HW). split; [|exact HL]. pose proof HP as (Hw & Hp & Hb).
  destruct (axes_api _ _ _ _ _ _ _ _ _ _ _ Hw Hp Hb HB) as (_ & LU & _ & _ & LN & Hax). cbv zeta in Hax. destruct Hax as (_ & _ & H0 & _).
  specialize (HW (si_resolution a / 2)%nat ltac:(lia)). rewrite H0, Rabs_R0 in HW. pose proof (proj1 HW (limit_pos a HP)). lia.
Qed.

Lemma end_exact orc a s f s' cwd p dir stem j : physical a -> wf s -> run (simulate_data_pyoof orc a) s = (Ok f, s') ->
  s (sim_file a j) = None -> s' (sim_file a j) <> None -> names_fits p dir stem -> resolve cwd p = sim_file a j ->
  length (si_I a) = 5%nat -> (forall x, so_f32 orc x = Fin x) -> si_noise a = 0 ->
  exists ob U V n, fst (run (extract_data_pyoof cwd p) s') = Ok ob /\ ob_u ob = map (map Fin) U /\ ob_v ob = map (map Fin) V /\ (0 < n)%nat /\
    map (@length num) (ob_beam ob) = [n; n; n] /\
    residual_true (si_illum a) (si_tel a) (si_I a ++ si_K a) (ob_beam ob) U V (ob_d_z ob) (ob_wavel ob) (si_resolution a) (si_box_factor a) = Ok (repeat 0 (3 * n)).
Proof.
  intros HP HW HR N0 N1 HN HQ HI HF Hn.
  destruct (round_trip orc a s f s' cwd p dir stem j HP HW HR N0 N1 HN HQ) as (z0 & z1 & z2 & rest & u & F0 & F1 & F2 & i0 & k & ob & Ez & HB & Win & Eob & _ & _ & _ & Ew & _ & _ & Edz & Hc).
  cbv zeta in Hc. unfold sim_columns in Hc. cbn [fst snd] in Hc. rewrite Hn in Hc. destruct Hc as (Hbeam & Hu & Hv).
  destruct HB as (v0 & v1 & v2 & B0 & B1 & B2).
  destruct (window_pos a z0 u v0 F0 i0 k HP B0 Win) as [Hk Hik].
  set (X := block k (fun _ c => nth (i0 + c) u 0)) in *. set (Y := block k (fun r _ => nth (i0 + r) u 0)) in *.
  assert (EF : forall l, map (so_f32 orc) l = map Fin l) by (intros l; apply map_ext; exact HF).
  do 3 rewrite EF in Hbeam. do 1 rewrite EF in Hu. do 1 rewrite EF in Hv.
  destruct (Req_EM_T 0 0) as [_|G]; [|congruence].
  assert (EP : forall F, block k (fun r c => Cmod (at2 F (i0 + r) (i0 + c)) ^ 2 + 0) = block k (fun r c => Cmod (at2 F (i0 + r) (i0 + c)) ^ 2)) by (intros F; apply block_ext; intros; ring).
  rewrite !EP in Hbeam.
  exists ob, [X; X; X], [Y; Y; Y], (k * k)%nat. split; [exact Eob|]. split; [exact Hu|]. split; [exact Hv|]. split; [nia|].
  split; [rewrite Hbeam; cbn [map]; rewrite !map_length, !block_length; reflexivity|].
  rewrite Hbeam, Edz, Ew.
  assert (ID : forall l, map (affine 1 0) (map Fin l) = map Fin l) by (intros l; rewrite map_map; apply map_ext; intros x; unfold affine; cbn; f_equal; ring).
  rewrite <- (ID (block k (fun r c => Cmod (at2 F0 (i0 + r) (i0 + c)) ^ 2))), <- (ID (block k (fun r c => Cmod (at2 F1 (i0 + r) (i0 + c)) ^ 2))), <- (ID (block k (fun r c => Cmod (at2 F2 (i0 + r) (i0 + c)) ^ 2))).
  rewrite (residual_exact (si_illum a) (si_tel a) (si_I a ++ si_K a) [X; X; X] [Y; Y; Y] [z0; z1; z2] (si_wavel a) (si_resolution a) (si_box_factor a)
    (block k (fun r c => Cmod (at2 F0 (i0 + r) (i0 + c)) ^ 2)) (block k (fun r c => Cmod (at2 F1 (i0 + r) (i0 + c)) ^ 2)) (block k (fun r c => Cmod (at2 F2 (i0 + r) (i0 + c)) ^ 2)) 1 0 1 0 1 0); try lra.
  - rewrite !block_length. do 2 f_equal. lia.
  - assert (NE : forall F, block k (fun r c => Cmod (at2 F (i0 + r) (i0 + c)) ^ 2) <> []) by (intros F E; apply (f_equal (@length R)) in E; rewrite block_length in E; cbn in E; nia).
    intros i mi [E|[E|[E|[]]]]; injection E as <- <-; (split; [|apply NE]);
    [apply (model_at_window a z0 u v0)|apply (model_at_window a z1 u v1)|apply (model_at_window a z2 u v2)]; auto.
Qed.

(** Two samples of the map differ by at least D. *)
Lemma end_noisy orc a s f s' cwd p dir stem j e : physical a -> wf s -> run (simulate_data_pyoof orc a) s = (Ok f, s') ->
  s (sim_file a j) = None -> s' (sim_file a j) <> None -> names_fits p dir stem -> resolve cwd p = sim_file a j ->
  length (si_I a) = 5%nat -> (forall x, so_f32 orc x = Fin x) -> (forall i r c, Rabs (so_normal orc (si_noise a) i r c) <= e) ->
  exists z0 z1 z2 rest u F0 F1 F2 i0 k ob U V, si_d_z a = z0 :: z1 :: z2 :: rest /\ beams a z0 z1 z2 u F0 F1 F2 /\ window u (sim_limit a) i0 k /\
    fst (run (extract_data_pyoof cwd p) s') = Ok ob /\ ob_u ob = map (map Fin) U /\ ob_v ob = map (map Fin) V /\
    forall D, 0 < D -> (forall F, In F [F0; F1; F2] -> exists r c r' c', (r < k /\ c < k /\ r' < k /\ c' < k)%nat /\
      D <= Cmod (at2 F (i0 + r) (i0 + c)) ^ 2 - Cmod (at2 F (i0 + r') (i0 + c')) ^ 2) ->
    exists res, residual_true (si_illum a) (si_tel a) (si_I a ++ si_K a) (ob_beam ob) U V (ob_d_z ob) (ob_wavel ob) (si_resolution a) (si_box_factor a) = Ok res /\
      length res = (3 * (k * k))%nat /\ forall x, In x res -> Rabs x <= 4 * e / D.
Proof.
  intros HP HW HR N0 N1 HN HQ HI HF He.
  destruct (round_trip orc a s f s' cwd p dir stem j HP HW HR N0 N1 HN HQ) as (z0 & z1 & z2 & rest & u & F0 & F1 & F2 & i0 & k & ob & Ez & HB & Win & Eob & _ & _ & _ & Ew & _ & _ & Edz & Hc).
  cbv zeta in Hc. unfold sim_columns in Hc. cbn [fst snd] in Hc. destruct Hc as (Hbeam & Hu & Hv).
  pose proof HB as (v0 & v1 & v2 & B0 & B1 & B2).
  destruct (window_pos a z0 u v0 F0 i0 k HP B0 Win) as [Hk Hik].
  set (X := block k (fun _ c => nth (i0 + c) u 0)) in *. set (Y := block k (fun r _ => nth (i0 + r) u 0)) in *.
  assert (EF : forall l, map (so_f32 orc) l = map Fin l) by (intros l; apply map_ext; exact HF).
  do 3 rewrite EF in Hbeam. do 1 rewrite EF in Hu. do 1 rewrite EF in Hv.
  exists z0, z1, z2, rest, u, F0, F1, F2, i0, k, ob, [X; X; X], [Y; Y; Y].
  split; [exact Ez|]. split; [exact HB|]. split; [exact Win|]. split; [exact Eob|]. split; [exact Hu|]. split; [exact Hv|].
  intros D HD HS. rewrite Hbeam, Edz, Ew.
  set (P F := block k (fun r c => Cmod (at2 F (i0 + r) (i0 + c)) ^ 2)).
  assert (He0 : 0 <= e) by (pose proof (He 0%nat 0%nat 0%nat); pose proof (Rabs_pos (so_normal orc (si_noise a) 0 0 0)); lra).
  assert (HC : forall i F, close e (block k (fun r c => Cmod (at2 F (i0 + r) (i0 + c)) ^ 2 + (if Req_EM_T (si_noise a) 0 then 0 else so_normal orc (si_noise a) i r c))) (P F)).
  { intros i F. unfold P. apply block_close. intros r c _ _. set (q := Cmod _ ^ 2).
    destruct (Req_EM_T (si_noise a) 0); [replace (q + 0 - q) with 0 by ring; rewrite Rabs_R0; exact He0|replace (q + so_normal orc (si_noise a) i r c - q) with (so_normal orc (si_noise a) i r c) by ring; apply He]. }
  destruct (residual_close (si_illum a) (si_tel a) (si_I a ++ si_K a) [X; X; X] [Y; Y; Y] [z0; z1; z2] (si_wavel a) (si_resolution a) (si_box_factor a) e D (P F0) (P F1) (P F2) _ _ _ HD
    (model_at_window a z0 u v0 F0 i0 k [X; X; X] [Y; Y; Y] [z0; z1; z2] 0 HP HI B0 Hik eq_refl eq_refl eq_refl)
    (model_at_window a z1 u v1 F1 i0 k [X; X; X] [Y; Y; Y] [z0; z1; z2] 1 HP HI B1 Hik eq_refl eq_refl eq_refl)
    (model_at_window a z2 u v2 F2 i0 k [X; X; X] [Y; Y; Y] [z0; z1; z2] 2 HP HI B2 Hik eq_refl eq_refl eq_refl)
    (HC 0%nat F0) (HC 1%nat F1) (HC 2%nat F2)) as (r & Er & Lr & Br).
  - assert (G : forall F, In F [F0; F1; F2] -> exists x y, In x (P F) /\ In y (P F) /\ D <= y - x).
    { intros F IF. destruct (HS F IF) as (r & c & r' & c' & (R & C & R' & C') & H). exists (Cmod (at2 F (i0 + r') (i0 + c')) ^ 2), (Cmod (at2 F (i0 + r) (i0 + c)) ^ 2).
      split; [apply block_in; exists r', c'; auto|]. split; [apply block_in; exists r, c; auto|exact H]. }
    intros m [<-|[<-|[<-|[]]]]; apply G; [left; reflexivity|right; left; reflexivity|right; right; left; reflexivity].
  - exists r. split; [exact Er|]. split; [rewrite Lr, !block_length; lia|exact Br].
Qed.
