(** Proofs about the figures of plot_routines.py: measured maps and phases. *)
From Coq Require Import String Ascii List Lia Lra.
From Verif Require Import PyBase Num MZernike MMath MAperture MRad MCore MFs MAct MAux MOut MPlot SZernike SMath SAct SPlot PNorm PAct PPhase PRad PPlot PPlot2.
From Coquelicot Require Import Complex.
Import ListNotations.
Open Scope R_scope.
Open Scope string_scope.
Open Scope list_scope.

Local Lemma Ok_inj {A} (a b : A) : Ok a = Ok b -> a = b.
Proof. congruence. Qed.

Lemma norm_all_normalised row q : norm_all row = Ok q -> normalised row (map Fin q).
Proof.
  intros E. split.
  - intros v ->. destruct v as [|x t]; [discriminate|].
    destruct (ext_exists (x :: t) ltac:(discriminate)) as (mn & mx & X). exists mn, mx. split; [exact X|]. f_equal.
    destruct (norm_by_scaled _ mn mx x X (or_introl eq_refl)) as (E1 & E2 & _).
    unfold norm_all in E. rewrite E1, E2 in E. cbn [bind] in E. apply Ok_inj in E. subst q. rewrite map_map. apply map_ext_in.
    intros y Hy. apply (norm_by_scaled (x :: t)); assumption.
  - intros H. rewrite (norm_nonfinite row H) in E. apply Ok_inj in E. subst q. now rewrite map_map.
Qed.

Lemma arr_min_max_ext l a b : arr_min l = Ok a -> arr_max l = Ok b -> extent_of (fun t => In t l) a b.
Proof.
  destruct l as [|x t]; [discriminate|]. unfold arr_min, arr_max. intros E1 E2. apply Ok_inj in E1. apply Ok_inj in E2. subst.
  destruct (fold_Rmin_spec t x) as [I1 L1]. destruct (fold_Rmax_spec t x) as [I2 L2]. split; [exact I1|]. split; [exact I2|].
  intros y Hy. split; auto.
Qed.
Lemma arr_min_ok l : l <> [] -> exists a, arr_min l = Ok a.
Proof. destruct l; [congruence|]. intros _. eexists; reflexivity. Qed.
Lemma arr_max_ok l : l <> [] -> exists a, arr_max l = Ok a.
Proof. destruct l; [congruence|]. intros _. eexists; reflexivity. Qed.

Section Data.
Variables (gd : list R -> list R -> list num -> list R -> list R -> list (list num)) (fmt : R -> string) (N : nat) (g : angle_unit).
Hypothesis gd_shape : forall u v b x y, rect (length y) (length x) (gd u v b x y).

(** The panel of one map, as plot_beam_data builds it. *)
Definition data_panel (first : bool) (t : string) (u v : list R) (b : list num) : res panel :=
  let ua := to_unit g u in let va := to_unit g v in
  bind (arr_min ua) (fun umin => bind (arr_max ua) (fun umax => bind (arr_min va) (fun vmin => bind (arr_max va) (fun vmax =>
  let u_ng := linspace umin umax N in
  let v_ng := linspace vmin vmax N in
  beam_panel g first t u_ng v_ng (gd ua va b u_ng v_ng) None None)))).

Lemma data_panel_ok first d u v b : u <> [] -> v <> [] -> (2 <= N)%nat ->
  exists pn, data_panel first (beam_title fmt d) u v b = Ok pn /\ shows_data gd fmt N g pn first u v b d.
Proof.
  intros Hu Hv HN. assert (Ku : to_unit g u <> []) by (destruct u; [congruence|discriminate]). assert (Kv : to_unit g v <> []) by (destruct v; [congruence|discriminate]).
  destruct (arr_min_ok _ Ku) as [ua Eua]. destruct (arr_max_ok _ Ku) as [ub Eub]. destruct (arr_min_ok _ Kv) as [va Eva]. destruct (arr_max_ok _ Kv) as [vb Evb].
  pose proof (arr_min_max_ext _ _ _ Eua Eub) as XU. pose proof (arr_min_max_ext _ _ _ Eva Evb) as XV.
  assert (LU : ua <= ub) by (destruct XU as (A & _ & B); apply B in A; lra). assert (LV : va <= vb) by (destruct XV as (A & _ & B); apply B in A; lra).
  unfold data_panel. rewrite Eua, Eub. cbn [bind]. rewrite Eva, Evb. cbn [bind]. cbv zeta.
  pose proof (spaced_linspace ua ub N HN) as SU. pose proof (spaced_linspace va vb N HN) as SV.
  assert (N1 : 0 < INR (N - 1)) by (apply lt_0_INR; lia).
  assert (P1 : 0 <= (ub - ua) / INR (N - 1)) by (apply Rmult_le_pos; [lra|apply Rlt_le, Rinv_0_lt_compat, N1]).
  assert (P2 : 0 <= (vb - va) / INR (N - 1)) by (apply Rmult_le_pos; [lra|apply Rlt_le, Rinv_0_lt_compat, N1]).
  set (z := gd _ _ _ _ _).
  assert (RZ : rect N N z) by (pose proof (gd_shape (to_unit g u) (to_unit g v) b (linspace ua ub N) (linspace va vb N)) as R; rewrite (proj1 SU), (proj1 SV) in R; exact R).
  assert (NE : concat z <> []) by (apply (concat_nonempty N); [exact RZ|lia]).
  destruct (np_min_ok _ NE) as [zm Em]. destruct (np_max_ok _ NE) as [zM EM].
  destruct (beam_panel_spec g first (beam_title fmt d) _ _ z None None _ _ _ _ N N _ _ _ HN HN P1 P2 SU SV (array_of_elem NaN z N N RZ) Em EM)
    as (pn & EP & PO & T1 & T2 & T3 & T4 & T5 & T6 & _).
  exists pn. split; [exact EP|].
  exists ua, ub, va, vb. split; [exact XU|]. split; [exact XV|]. cbv zeta. fold (to_unit g u). fold (to_unit g v). fold z. split; [exact PO|].
  assert (IM : im_x0 (pn_image pn) = ua /\ im_x1 (pn_image pn) = ub /\ im_y0 (pn_image pn) = va /\ im_y1 (pn_image pn) = vb).
  { destruct (spaced_ext _ _ _ N ltac:(lia) P1 SU) as [U0 U1]. destruct (spaced_ext _ _ _ N ltac:(lia) P2 SV) as [V0 V1].
    unfold beam_panel in EP. rewrite Em, EM in EP. cbn [bind] in EP. rewrite U0, U1 in EP. cbn [bind] in EP. rewrite V0, V1 in EP. cbn [bind] in EP.
    rewrite (contour_ok _ _ z _ N N HN HN RZ (proj1 SU) (proj1 SV)) in EP. cbn [bind] in EP. apply Ok_inj in EP. subst pn. cbn.
    split; [reflexivity|]. split; [field; lra|]. split; [reflexivity|field; lra]. }
  destruct IM as (I1 & I2 & I3 & I4). split; [exact I1|]. split; [exact I2|]. split; [exact I3|]. split; [exact I4|].
  split; [exact T1|]. split; [exact T2|]. split; [exact T3|]. split; [exact T5|]. split; [exact T6|].
  intros w Hw. rewrite Hw in Em, EM. destruct w as [|x t]; [discriminate|]. destruct (ext_exists (x :: t) ltac:(discriminate)) as (mn & mx & X).
  exists mn, mx. split; [exact X|]. destruct (norm_by_scaled _ mn mx x X (or_introl eq_refl)) as (E1 & E2 & _).
  rewrite T4. congruence.
Qed.

Lemma data_panel_inv first t u v b pn : data_panel first t u v b = Ok pn -> u <> [] /\ v <> [] /\ (2 <= N)%nat.
Proof.
  unfold data_panel. destruct u as [|u0 ut]; [discriminate|]. destruct v as [|v0 vt].
  { cbn. discriminate. }
  intros H. split; [discriminate|]. split; [discriminate|].
  destruct (arr_min (to_unit g (u0 :: ut))) as [ua|]; cbn [bind] in H; [|discriminate].
  destruct (arr_max (to_unit g (u0 :: ut))) as [ub|]; cbn [bind] in H; [|discriminate].
  destruct (arr_min (to_unit g (v0 :: vt))) as [va|]; cbn [bind] in H; [|discriminate].
  destruct (arr_max (to_unit g (v0 :: vt))) as [vb|]; cbn [bind] in H; [|discriminate]. cbv zeta in H.
  unfold beam_panel in H. destruct (np_min _) as [zm|]; cbn [bind] in H; [|discriminate]. destruct (np_max _) as [zM|]; cbn [bind] in H; [|discriminate].
  destruct (arr_min _) as [x0|]; cbn [bind] in H; [|discriminate]. destruct (arr_max _) as [x1|]; cbn [bind] in H; [|discriminate].
  destruct (arr_min _) as [y0|]; cbn [bind] in H; [|discriminate]. destruct (arr_max _) as [y1|]; cbn [bind] in H; [|discriminate].
  destruct (contour _ _ _ _) as [ct|] eqn:EC; cbn [bind] in H; [|discriminate]. apply contour_inv in EC. destruct EC as (L & _ & _ & L2 & _).
  rewrite <- L2 in L. unfold linspace in L. rewrite map_length, seq_length in L. exact L.
Qed.

Lemma mapM_nth {A B} (f : A -> res B) l ys i y : mapM f l = Ok ys -> nth_error ys i = Some y -> exists x, nth_error l i = Some x /\ f x = Ok y.
Proof.
  revert ys i. induction l as [|a t IH]; intros ys i E H.
  - inversion E; subst. destruct i; discriminate.
  - apply mapM_app_cons in E. destruct E as (b & bs & E1 & E2 & ->). destruct i as [|i]; cbn [nth_error] in *.
    + inversion H; subst. exists a. auto.
    + apply (IH bs i E2 H).
Qed.

Lemma mapM_length {A B} (f : A -> res B) l ys : mapM f l = Ok ys -> length ys = length l.
Proof.
  revert ys. induction l as [|a t IH]; intros ys E; [inversion E; reflexivity|]. apply mapM_app_cons in E.
  destruct E as (b & bs & _ & E2 & ->). cbn. now rewrite (IH bs E2).
Qed.

(** What the data of map i become before drawing. *)
Definition drawn (res_mode : bool) (row b : list num) : Prop := if res_mode then b = row else exists q, norm_all row = Ok q /\ b = map Fin q.

Lemma plot_beam_data_spec u_data v_data beam d_z title res_mode fig :
  plot_beam_data gd fmt u_data v_data beam d_z N g title res_mode = Ok fig ->
  fg_title fig = title /\ length (fg_panels fig) = 3%nat /\
  forall i pn, nth_error (fg_panels fig) i = Some pn -> exists u v row b d,
    nth_error u_data i = Some u /\ nth_error v_data i = Some v /\ nth_error beam i = Some row /\ nth_error d_z i = Some d /\
    drawn res_mode row b /\ shows_data gd fmt N g pn (Nat.eqb i 0) u v b d.
Proof.
  unfold plot_beam_data. intros H.
  destruct (if res_mode then Ok beam else bind (norm_rows beam) (fun b => Ok (fins b))) as [bm|] eqn:EB; cbn [bind] in H; [|discriminate].
  destruct (beam_titles fmt d_z) as [titles|] eqn:ET; cbn [bind] in H; [|discriminate].
  destruct (py_get u_data 0) as [u0|] eqn:EU; cbn [bind] in H; [|discriminate]. destruct (py_get v_data 0) as [v0|] eqn:EV; cbn [bind] in H; [|discriminate].
  destruct (uv_ratio 1 1 u0 v0) as [size|]; cbn [bind] in H; [|discriminate].
  destruct (mapM _ [0; 1; 2]%nat) as [panels|] eqn:EP; cbn [bind] in H; [|discriminate]. apply Ok_inj in H. subst fig. cbn [fg_title fg_panels].
  split; [reflexivity|]. split.
  { exact (mapM_length _ _ _ EP). }
  intros i pn Hi. pose proof (mapM_nth _ _ _ _ _ EP Hi) as (x & Hx & EX).
  assert (x = i) by (destruct i as [|[|[|[|i]]]]; cbn in Hx; congruence). subst x.
  destruct (py_get u_data i) as [u|] eqn:E1; cbn [bind] in EX; [|discriminate]. destruct (py_get v_data i) as [v|] eqn:E2; cbn [bind] in EX; [|discriminate].
  destruct (py_get bm i) as [b|] eqn:E3; cbn [bind] in EX; [|discriminate]. destruct (py_get titles i) as [t|] eqn:E4; cbn [bind] in EX; [|discriminate].
  change (data_panel (Nat.eqb i 0) t u v b = Ok pn) in EX.
  assert (PG : forall A (l : list A) j a, py_get l j = Ok a -> nth_error l j = Some a) by (intros A l j a; unfold py_get; destruct (nth_error l j); congruence).
  assert (Tt : exists d, nth_error d_z i = Some d /\ t = beam_title fmt d).
  { unfold beam_titles in ET. pose proof (mapM_nth _ _ _ _ _ ET (PG _ _ _ _ E4)) as (y & Hy & EY).
    assert (y = i) by (destruct i as [|[|[|[|i]]]]; cbn in Hy; congruence). subst y.
    destruct (py_get d_z i) as [d|] eqn:ED; cbn [bind] in EY; [|discriminate]. apply Ok_inj in EY. exists d. split; [apply PG, ED|congruence]. }
  destruct Tt as (d & Hd & ->).
  assert (DR : exists row, nth_error beam i = Some row /\ drawn res_mode row b).
  { destruct res_mode.
    - apply Ok_inj in EB. subst bm. exists b. split; [apply PG, E3|reflexivity].
    - rewrite norm_rows_eq in EB. destruct (mapM norm_all beam) as [qs|] eqn:EQ; cbn [bind] in EB; [|discriminate]. apply Ok_inj in EB. subst bm.
      apply PG in E3. unfold fins, map2d in E3. rewrite nth_error_map in E3. destruct (nth_error qs i) as [q|] eqn:Eq; cbn in E3; [|discriminate].
      destruct (mapM_nth _ _ _ _ _ EQ Eq) as (row & Hr & En). exists row. split; [exact Hr|]. exists q. split; [exact En|congruence]. }
  destruct DR as (row & Hrow & Hdr).
  destruct (data_panel_inv _ _ _ _ _ _ EX) as (Nu & Nv & N2).
  destruct (data_panel_ok (Nat.eqb i 0) d u v b Nu Nv N2) as (pn' & EP' & SD). rewrite EX in EP'. apply Ok_inj in EP'. subst pn'.
  exists u, v, row, b, d. auto 10.
Qed.

Lemma plot_beam_data_ok u0 u1 u2 us v0 v1 v2 vs b0 b1 b2 d0 d1 d2 ds title res_mode : (2 <= N)%nat ->
  u0 <> [] -> u1 <> [] -> u2 <> [] -> v0 <> [] -> v1 <> [] -> v2 <> [] -> b0 <> [] -> b1 <> [] -> b2 <> [] ->
  (exists x y, In x v0 /\ In y v0 /\ x <> y) ->
  exists fig, plot_beam_data gd fmt (u0 :: u1 :: u2 :: us) (v0 :: v1 :: v2 :: vs) [b0; b1; b2] (d0 :: d1 :: d2 :: ds) N g title res_mode = Ok fig.
Proof.
  intros N2 U0 U1 U2 V0 V1 V2 B0 B1 B2 (x & y & Hx & Hy & Hxy).
  assert (NB : forall l, l <> [] -> exists q, norm_all l = Ok q).
  { intros l Hl. unfold norm_all. destruct (np_min_ok l Hl) as [a ->]. destruct (np_max_ok l Hl) as [b ->]. cbn. eexists; reflexivity. }
  destruct (NB b0 B0) as [q0 Q0]. destruct (NB b1 B1) as [q1 Q1]. destruct (NB b2 B2) as [q2 Q2].
  assert (BM : exists c0 c1 c2, (if res_mode then Ok [b0; b1; b2] else bind (norm_rows [b0; b1; b2]) (fun b => Ok (fins b))) = Ok [c0; c1; c2]).
  { destruct res_mode; [exists b0, b1, b2; reflexivity|]. rewrite norm_rows_eq. cbn [mapM]. rewrite Q0, Q1, Q2. cbn. eexists _, _, _; reflexivity. }
  destruct BM as (c0 & c1 & c2 & EB). unfold plot_beam_data. rewrite EB. cbn [bind].
  unfold beam_titles. cbn [mapM]. unfold py_get. cbn [nth_error bind].
  assert (UV : exists s, uv_ratio 1 1 u0 v0 = Ok s).
  { unfold uv_ratio. destruct (arr_max_ok _ U0) as [e1 ->]. destruct (arr_min_ok _ U0) as [e2 ->]. destruct (arr_max_ok _ V0) as [e3 E3]. destruct (arr_min_ok _ V0) as [e4 E4].
    rewrite E3, E4. cbn [bind]. unfold Reqb. destruct (Req_EM_T (e3 - e4) 0) as [E|_]; [|eexists; reflexivity].
    exfalso. destruct (arr_min_max_ext _ _ _ E4 E3) as (_ & _ & X). pose proof (X x Hx). pose proof (X y Hy). lra. }
  destruct UV as [s ->]. cbn [bind].
  destruct (data_panel_ok (Nat.eqb 0 0) d0 u0 v0 c0 U0 V0 N2) as (p0 & P0 & _). destruct (data_panel_ok (Nat.eqb 1 0) d1 u1 v1 c1 U1 V1 N2) as (p1 & P1 & _).
  destruct (data_panel_ok (Nat.eqb 2 0) d2 u2 v2 c2 U2 V2 N2) as (p2 & P2 & _).
  unfold data_panel in P0, P1, P2. rewrite P0. cbn [bind]. rewrite P1. cbn [bind]. rewrite P2. cbn [bind]. eexists; reflexivity.
Qed.

(** Gains and offsets of the maps do not show. *)
Lemma mapM_affine go beam : length go = length beam -> Forall (fun p => 0 < fst p) go ->
  mapM norm_all (map2 (fun p row => map (affine (fst p) (snd p)) row) go beam) = mapM norm_all beam.
Proof.
  revert go. induction beam as [|row t IH]; intros [|p go] L F; try discriminate; [reflexivity|].
  inversion F; subst. cbn [map2 mapM]. rewrite norm_affine by assumption. rewrite IH by (auto; cbn in L; lia). reflexivity.
Qed.
Lemma plot_beam_data_gain go u_data v_data beam d_z title : length go = length beam -> Forall (fun p => 0 < fst p) go ->
  plot_beam_data gd fmt u_data v_data (map2 (fun p row => map (affine (fst p) (snd p)) row) go beam) d_z N g title false =
  plot_beam_data gd fmt u_data v_data beam d_z N g title false.
Proof. intros L F. unfold plot_beam_data. rewrite !norm_rows_eq, mapM_affine by assumption. reflexivity. Qed.
End Data.

(** ** Phases *)
Lemma levels_phase : nlinspace (Fin (-2)) (Fin 2) 9 = map Fin [-2; -1.5; -1; -0.5; 0; 0.5; 1; 1.5; 2].
Proof. cbn [nlinspace]. f_equal. unfold linspace. cbn [seq map Nat.sub INR]. repeat (f_equal; [lra|]). f_equal. lra. Qed.

Lemma phase_figure_spec bar title pr n z : 0 < pr -> (2 <= n)%nat -> rect n n z ->
  exists pn, phase_figure bar title pr (linspace (- pr) pr n) (linspace (- pr) pr n) z = Ok {| fg_size := (6, 5.8); fg_title := ""; fg_panels := [pn] |} /\
    portrays pn (linspace (- pr) pr n) (linspace (- pr) pr n) (elem NaN z) /\
    pn_title pn = title /\ pn_bar pn = bar /\ pn_xlabel pn = "$x$ m" /\ pn_ylabel pn = "$y$ m" /\
    im_x0 (pn_image pn) = - pr /\ im_x1 (pn_image pn) = pr /\ im_y0 (pn_image pn) = - pr /\ im_y1 (pn_image pn) = pr /\
    (exists ct, pn_contour pn = Some ct /\ ct_levels ct = map Fin [-2; -1.5; -1; -0.5; 0; 0.5; 1; 1.5; 2]).
Proof.
  intros Hpr Hn Hz. pose proof (spaced_linspace (- pr) pr n Hn) as S.
  assert (N1 : 0 < INR (n - 1)) by (apply lt_0_INR; lia).
  assert (P1 : 0 <= (pr - - pr) / INR (n - 1)) by (apply Rmult_le_pos; [lra|apply Rlt_le, Rinv_0_lt_compat, N1]).
  unfold phase_figure. rewrite (contour_ok _ _ z _ n n Hn Hn Hz (proj1 S) (proj1 S)). cbn [bind].
  eexists. split; [reflexivity|]. split.
  - eapply (portrays_spaced _ _ _ z (elem NaN z) _ _ _ _ n n); try exact S; try exact P1; try reflexivity; try lia; cbn [pn_image im_x0 im_x1 im_y0 im_y1].
    + apply array_of_elem, Hz.
    + field; lra.
    + field; lra.
  - cbn. repeat (split; [reflexivity|]). eexists. split; [reflexivity|]. cbn [ct_levels]. apply levels_phase.
Qed.

Lemma plot_phase_data_square z pr title n : 0 < pr -> (2 <= n)%nat -> rect n n z ->
  exists pn, plot_phase_data z pr title = Ok {| fg_size := (6, 5.8); fg_title := ""; fg_panels := [pn] |} /\
    portrays pn (linspace (- pr) pr n) (linspace (- pr) pr n) (elem NaN z) /\
    pn_title pn = title /\ pn_bar pn = "$\varphi(x, y)$ amplitude rad" /\ pn_xlabel pn = "$x$ m" /\ pn_ylabel pn = "$y$ m" /\
    im_x0 (pn_image pn) = - pr /\ im_x1 (pn_image pn) = pr /\ im_y0 (pn_image pn) = - pr /\ im_y1 (pn_image pn) = pr /\
    (exists ct, pn_contour pn = Some ct /\ ct_levels ct = map Fin [-2; -1.5; -1; -0.5; 0; 0.5; 1; 1.5; 2]).
Proof.
  intros Hpr Hn Hz. unfold plot_phase_data. rewrite (proj1 Hz). cbv zeta. apply phase_figure_spec; assumption.
Qed.
Lemma plot_phase_data_other z pr title rows cols : rect rows cols z -> (0 < rows)%nat -> rows <> cols \/ (rows < 2)%nat -> plot_phase_data z pr title = Err TypeError.
Proof.
  intros Hz H0 H. unfold plot_phase_data, phase_figure, contour. rewrite (ncols_rect rows cols z Hz H0), (proj1 Hz).
  unfold linspace. rewrite map_length, seq_length. destruct (Nat.leb_spec 2 rows); cbn [andb]; [|reflexivity]. destruct (Nat.leb_spec 2 cols); cbn [andb]; [|reflexivity].
  destruct (Nat.eqb_spec rows cols); cbn [andb]; [lia|reflexivity].
Qed.
