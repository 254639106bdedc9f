(** Proofs about the figures of plot_routines.py: beams and phases. *)
From Coq Require Import String Ascii List Lia Lra.
From Verif Require Import PyBase Num MZernike MMath MAperture MRad MCore MFs MAct MAux MOut MPlot SZernike SAct SPlot PNorm PAct PPhase PRad PPlot.
From Coquelicot Require Import Complex.
Import ListNotations.
Open Scope R_scope.
Open Scope string_scope.
Open Scope list_scope.

(** ** Equally spaced axes *)
Definition spaced (l : list R) (a s : R) (n : nat) : Prop := length l = n /\ forall i, (i < n)%nat -> nth i l 0 = a + INR i * s.

Lemma arr_ext (l : list R) a b : In a l -> In b l -> (forall x, In x l -> a <= x <= b) -> arr_min l = Ok a /\ arr_max l = Ok b.
Proof.
  destruct l as [|x t]; [intros []|]. intros Ha Hb H. unfold arr_min, arr_max.
  destruct (fold_Rmin_spec t x) as [I1 L1]. destruct (fold_Rmax_spec t x) as [I2 L2].
  split; f_equal; apply Rle_antisym; auto; try (apply H; assumption).
Qed.

Lemma spaced_ext l a s n : (0 < n)%nat -> 0 <= s -> spaced l a s n -> arr_min l = Ok a /\ arr_max l = Ok (a + INR (n - 1) * s).
Proof.
  intros Hn Hs [L E]. apply arr_ext.
  - replace a with (nth 0 l 0) by (rewrite E by exact Hn; simpl; ring). apply nth_In. lia.
  - rewrite <- (E (n - 1)%nat) by lia. apply nth_In. lia.
  - intros x Hx. apply (In_nth _ _ 0) in Hx. destruct Hx as (i & Hi & <-). rewrite L in Hi. rewrite E by exact Hi.
    assert (0 <= INR i) by apply pos_INR. assert (INR i <= INR (n - 1)) by (apply le_INR; lia). nra.
Qed.

Lemma spaced_linspace a b n : (2 <= n)%nat -> spaced (linspace a b n) a ((b - a) / INR (n - 1)) n.
Proof.
  intros Hn. split; [unfold linspace; now rewrite map_length, seq_length|].
  intros i Hi. apply nth_error_nth. unfold linspace. now rewrite nth_error_map_seq.
Qed.
Lemma spaced_scale k l a s n : spaced l a s n -> spaced (map (Rmult k) l) (k * a) (k * s) n.
Proof.
  intros [L E]. split; [now rewrite map_length|]. intros i Hi. apply nth_error_nth.
  rewrite (map_nth_error _ _ _ (nth_error_nth' l 0 ltac:(rewrite L; exact Hi))). rewrite E by exact Hi. f_equal. ring.
Qed.

Lemma spaced_half_cell l a s n i : (0 < n)%nat -> 0 <= s -> spaced l a s n -> (i < n)%nat ->
  half_cell a (a + INR (n - 1) * s) n (a + (INR i + 1 / 2) * ((a + INR (n - 1) * s - a) / INR n)) (nth i l 0).
Proof.
  intros Hn Hs [L E] Hi. unfold half_cell. rewrite E by exact Hi.
  assert (N0 : 0 < INR n) by (apply lt_0_INR; exact Hn).
  assert (N1 : INR (n - 1) = INR n - 1) by (rewrite minus_INR by lia; reflexivity).
  assert (I0 : 0 <= INR i) by apply pos_INR. assert (I1 : INR i <= INR n - 1) by (rewrite <- N1; apply le_INR; lia).
  rewrite N1. set (N := INR n) in *.
  replace (a + (INR i + 1 / 2) * ((a + (N - 1) * s - a) / N) - (a + INR i * s)) with (s * ((N - 1) - 2 * INR i) / (2 * N)) by (field; lra).
  replace ((a + (N - 1) * s - a) / (2 * N)) with (s * (N - 1) / (2 * N)) by (field; lra).
  unfold Rdiv. rewrite Rabs_mult, (Rabs_right (/ (2 * N))) by (apply Rle_ge, Rlt_le, Rinv_0_lt_compat; lra).
  apply Rmult_le_compat_r; [apply Rlt_le, Rinv_0_lt_compat; lra|].
  rewrite Rabs_mult, (Rabs_right s) by lra. apply Rmult_le_compat_l; [exact Hs|].
  unfold Rabs. destruct (Rcase_abs _); lra.
Qed.

(** ** A panel over equally spaced axes *)
Lemma array_of_map2d {A B} (f : A -> B) m rows cols g : array_of m rows cols g -> array_of (map2d f m) rows cols (fun r c => f (g r c)).
Proof.
  intros [[L F] H]. split.
  - split; [unfold map2d; now rewrite map_length|]. unfold map2d. apply Forall_map. eapply Forall_impl; [|exact F].
    intros row E. cbn. now rewrite map_length.
  - intros r c Hr Hc. unfold map2d. erewrite (nth_error_nth (map (map f) m)); [|apply map_nth_error, nth_error_nth'; lia].
    apply map_nth_error, H; assumption.
Qed.
Lemma array_of_elem {A} (d : A) m rows cols : rect rows cols m -> array_of m rows cols (elem d m).
Proof. intros H. split; [exact H|]. intros r c Hr Hc. apply (rect_elem rows cols); assumption. Qed.
Lemma array_of_ext {A} (m : list (list A)) rows cols f g : (forall r c, (r < rows)%nat -> (c < cols)%nat -> f r c = g r c) -> array_of m rows cols f -> array_of m rows cols g.
Proof. intros E [H1 H2]. split; [exact H1|]. intros r c Hr Hc. rewrite H2 by assumption. f_equal. apply E; assumption. Qed.

Lemma portrays_spaced pn x y z f ax sx ay sy nx ny lv : (0 < nx)%nat -> (0 < ny)%nat -> 0 <= sx -> 0 <= sy -> spaced x ax sx nx -> spaced y ay sy ny ->
  array_of z ny nx f -> pn_contour pn = Some {| ct_x := x; ct_y := y; ct_z := z; ct_levels := lv |} ->
  im_data (pn_image pn) = shown_all z -> im_x0 (pn_image pn) = ax -> im_x1 (pn_image pn) = ax + INR (nx - 1) * sx ->
  im_y0 (pn_image pn) = ay -> im_y1 (pn_image pn) = ay + INR (ny - 1) * sy -> im_lower (pn_image pn) = true ->
  portrays pn x y f.
Proof.
  intros Hnx Hny Hsx Hsy Sx Sy Hz Ec Ed X0 X1 Y0 Y1 O.
  assert (Lx : length x = nx) by apply Sx. assert (Ly : length y = ny) by apply Sy.
  assert (SH : array_of (shown_all z) ny nx (fun r c => Some (f r c))) by (apply (array_of_map2d Some), Hz).
  unfold portrays. rewrite Lx, Ly. split; [|split; [|split]].
  - eexists. split; [exact Ec|]. cbn. auto.
  - rewrite Ed. exact SH.
  - exact O.
  - intros r c Hr Hc. unfold cell_centre. rewrite O, Ed, X0, X1, Y0, Y1.
    rewrite (ncols_rect ny nx _ (proj1 SH)) by exact Hny. rewrite (proj1 (proj1 SH)). cbn [fst snd].
    split; apply spaced_half_cell; assumption.
Qed.

(** ** Scaling of a map *)
Lemma norm_by_scaled v mn mx x : extent_of (fun t => In t v) mn mx -> In x v ->
  np_min (map Fin v) = Ok (Fin mn) /\ np_max (map Fin v) = Ok (Fin mx) /\ norm_by (Fin mn) (Fin mx) (Fin x) = scaled mn mx x.
Proof.
  intros (H1 & H2 & H3) Hx. destruct v as [|y t]; [destruct Hx|].
  destruct (fold_Rmin_spec t y) as [I1 L1]. destruct (fold_Rmax_spec t y) as [I2 L2].
  assert (E1 : fold_left Rmin t y = mn) by (apply Rle_antisym; [apply L1; exact H1|apply H3, I1]).
  assert (E2 : fold_left Rmax t y = mx) by (apply Rle_antisym; [apply H3, I2|apply L2; exact H2]).
  split; [|split].
  - change (Ok (fold_left nmin (map Fin t) (Fin y)) = Ok (Fin mn)). rewrite fold_nmin_Fin. congruence.
  - change (Ok (fold_left nmax (map Fin t) (Fin y)) = Ok (Fin mx)). rewrite fold_nmax_Fin. congruence.
  - unfold norm_by, scaled. cbn. specialize (H3 x Hx). destruct (Req_EM_T mn mx) as [E|E].
    + destruct (Req_EM_T (mx + - mn) 0) as [_|N]; [|exfalso; lra].
      unfold inf_sign. destruct (Rlt_dec 0 _); [exfalso; lra|]. destruct (Rlt_dec _ 0); [exfalso; lra|]. reflexivity.
    + destruct (Req_EM_T (mx + - mn) 0) as [F|_]; [exfalso; lra|]. reflexivity.
Qed.

Lemma ext_exists v : v <> [] -> exists mn mx, extent_of (fun t => In t v) mn mx.
Proof.
  destruct v as [|x t]; [congruence|]. intros _. destruct (fold_Rmin_spec t x) as [I1 L1]. destruct (fold_Rmax_spec t x) as [I2 L2].
  exists (fold_left Rmin t x), (fold_left Rmax t x). split; [exact I1|]. split; [exact I2|]. intros y Hy. split; auto.
Qed.

Lemma norm2_spec P : concat P <> [] -> exists mn mx, extent_of (fun t => In t (concat P)) mn mx /\ norm2 P = Ok (map2d (scaled mn mx) P).
Proof.
  intros H. destruct (ext_exists _ H) as (mn & mx & E). exists mn, mx. split; [exact E|].
  assert (X : exists x, In x (concat P)) by (destruct (concat P) as [|x t]; [congruence|exists x; left; reflexivity]). destruct X as [x Hx].
  destruct (norm_by_scaled _ mn mx x E Hx) as (E1 & E2 & _).
  unfold norm2. rewrite E1, E2. cbn [bind]. f_equal. unfold map2d. apply map_ext_in. intros row Hr. apply map_ext_in. intros y Hy.
  apply (norm_by_scaled (concat P)); [exact E|]. apply in_concat. exists row. auto.
Qed.

Lemma in_concat_elem {A} (d : A) m rows cols x : rect rows cols m ->
  (In x (concat m) <-> exists r c, (r < rows)%nat /\ (c < cols)%nat /\ x = elem d m r c).
Proof.
  intros H. rewrite in_concat. split.
  - intros (row & Hr & Hx). apply (In_nth _ _ []) in Hr. destruct Hr as (r & Hr & <-). rewrite (proj1 H) in Hr.
    apply (In_nth _ _ d) in Hx. destruct Hx as (c & Hc & <-). destruct (rect_row _ _ _ r H Hr) as [_ L]. rewrite L in Hc.
    exists r, c. auto.
  - intros (r & c & Hr & Hc & ->). destruct (rect_row _ _ _ r H Hr) as [E L]. exists (nth r m []). split; [eapply nth_error_In; exact E|].
    apply nth_In. lia.
Qed.

Lemma scaled_extent P rows cols mn mx : rect rows cols P -> extent_of (fun t => In t (concat P)) mn mx ->
  np_min (concat (fins (map2d (scaled mn mx) P))) = Ok (Fin 0) /\
  np_max (concat (fins (map2d (scaled mn mx) P))) = Ok (Fin (if Req_EM_T mn mx then 0 else 1)).
Proof.
  intros H (H1 & H2 & H3).
  assert (C : concat (fins (map2d (scaled mn mx) P)) = map Fin (map (scaled mn mx) (concat P))).
  { unfold fins, map2d. rewrite <- !concat_map. reflexivity. }
  rewrite C. set (v := map (scaled mn mx) (concat P)).
  assert (Hle : mn <= mx) by (apply H3 in H1; lra).
  assert (E : extent_of (fun t => In t v) 0 (if Req_EM_T mn mx then 0 else 1)).
  { unfold extent_of, v. destruct (Req_EM_T mn mx) as [e|e].
    - split; [|split].
      + apply in_map_iff. exists mn. split; [|exact H1]. unfold scaled. destruct (Req_EM_T mn mx); congruence.
      + apply in_map_iff. exists mn. split; [|exact H1]. unfold scaled. destruct (Req_EM_T mn mx); congruence.
      + intros x Hx. apply in_map_iff in Hx. destruct Hx as (y & <- & _). unfold scaled. destruct (Req_EM_T mn mx); [lra|congruence].
    - assert (D : 0 < mx - mn) by lra. split; [|split].
      + apply in_map_iff. exists mn. split; [|exact H1]. unfold scaled. destruct (Req_EM_T mn mx); [congruence|]. field; lra.
      + apply in_map_iff. exists mx. split; [|exact H2]. unfold scaled. destruct (Req_EM_T mn mx); [congruence|]. field; lra.
      + intros x Hx. apply in_map_iff in Hx. destruct Hx as (y & <- & Hy). apply H3 in Hy. unfold scaled. destruct (Req_EM_T mn mx); [congruence|].
        split; [apply Rmult_le_pos; [lra|apply Rlt_le, Rinv_0_lt_compat; lra]|]. apply (Rmult_le_reg_r (mx - mn)); [exact D|].
        unfold Rdiv. rewrite Rmult_assoc, Rinv_l by lra. lra. }
  assert (X : In 0 v) by apply E. destruct (norm_by_scaled v _ _ 0 E X) as (E1 & E2 & _). auto.
Qed.

(** ** One beam panel *)
Lemma contour_inv x y z lv ct : contour x y z lv = Ok ct -> (2 <= length z)%nat /\ (2 <= ncols z)%nat /\ length x = ncols z /\ length y = length z /\
  ct = {| ct_x := x; ct_y := y; ct_z := z; ct_levels := lv |}.
Proof.
  unfold contour. destruct (Nat.leb_spec 2 (length z)); cbn [andb]; [|discriminate]. destruct (Nat.leb_spec 2 (ncols z)); cbn [andb]; [|discriminate].
  destruct (Nat.eqb_spec (length x) (ncols z)); cbn [andb]; [|discriminate]. destruct (Nat.eqb_spec (length y) (length z)); [|discriminate].
  intros E. inversion E. auto.
Qed.
Lemma contour_ok x y z lv nx ny : (2 <= nx)%nat -> (2 <= ny)%nat -> rect ny nx z -> length x = nx -> length y = ny ->
  contour x y z lv = Ok {| ct_x := x; ct_y := y; ct_z := z; ct_levels := lv |}.
Proof.
  intros Hx Hy Hz Lx Ly. unfold contour. rewrite (ncols_rect ny nx _ Hz) by lia. rewrite (proj1 Hz), Lx, Ly, !Nat.eqb_refl.
  rewrite (proj2 (Nat.leb_le 2 nx) Hx), (proj2 (Nat.leb_le 2 ny) Hy). reflexivity.
Qed.

Lemma beam_panel_spec g first t u v z xl yl au su av sv nu nv f a b : (2 <= nu)%nat -> (2 <= nv)%nat -> 0 <= su -> 0 <= sv ->
  spaced u au su nu -> spaced v av sv nv -> array_of z nv nu f -> np_min (concat z) = Ok a -> np_max (concat z) = Ok b ->
  exists pn, beam_panel g first t u v z xl yl = Ok pn /\ portrays pn u v f /\ pn_title pn = t /\ pn_xlabel pn = "$u$ " ^^ au_name g /\
    pn_ylabel pn = (if first then "$v$ " ^^ au_name g else "") /\ im_scale (pn_image pn) = Some (a, b) /\ pn_xlim pn = xl /\ pn_ylim pn = yl /\
    (exists ct, pn_contour pn = Some ct /\ ct_levels ct = nlinspace a b 10).
Proof.
  intros Hu Hv Hsu Hsv Su Sv Hz Ea Eb.
  destruct (spaced_ext u au su nu ltac:(lia) Hsu Su) as [U0 U1]. destruct (spaced_ext v av sv nv ltac:(lia) Hsv Sv) as [V0 V1].
  unfold beam_panel. rewrite Ea, Eb. cbn [bind]. rewrite U0, U1. cbn [bind]. rewrite V0, V1. cbn [bind].
  rewrite (contour_ok u v z _ nu nv Hu Hv (proj1 Hz) (proj1 Su) (proj1 Sv)). cbn [bind].
  eexists. split; [reflexivity|]. split.
  - eapply (portrays_spaced _ u v z f au su av sv nu nv); try eassumption; try reflexivity; lia.
  - cbn. repeat (split; [reflexivity|]). eexists. split; reflexivity.
Qed.

(** ** The first maximum *)
Lemma nth_error_concat {A} (d : A) rows cols m r c : rect rows cols m -> (r < rows)%nat -> (c < cols)%nat ->
  nth_error (concat m) (r * cols + c) = Some (elem d m r c).
Proof.
  intros [L F]. revert rows r L. induction m as [|row m IH]; intros rows r L Hr Hc; [simpl in L; lia|].
  inversion F as [|? ? F1 F2]; subst. cbn [concat]. destruct r as [|r].
  - cbn [Nat.mul Nat.add]. rewrite nth_error_app1 by lia. unfold elem. cbn [nth]. apply nth_error_nth'. lia.
  - rewrite nth_error_app2 by (cbn [Nat.mul]; lia). replace (S r * length row + c - length row)%nat with (r * length row + c)%nat by (cbn [Nat.mul]; lia).
    change (elem d (row :: m) (S r) c) with (elem d m r c). apply (IH F2 (length m)); [reflexivity|simpl in *; lia|lia].
Qed.
Lemma concat_rect_length {A} rows cols (m : list (list A)) : rect rows cols m -> length (concat m) = (rows * cols)%nat.
Proof.
  intros [L F]. revert rows L. induction m as [|row m IH]; intros rows L; [simpl in *; subst; reflexivity|].
  inversion F as [|? ? F1 F2]; subst. cbn [concat length]. rewrite app_length, (IH F2 (length m) eq_refl). cbn [Nat.mul]. reflexivity.
Qed.
Lemma meshgrid_rect {A B} (x : list A) (y : list B) : rect (length y) (length x) (meshgrid x y).
Proof.
  split; [unfold meshgrid; now rewrite map_length|]. unfold meshgrid. apply Forall_map, Forall_forall. intros b _. now rewrite map_length.
Qed.
Lemma meshgrid_elem (x y : list R) r c : (r < length y)%nat -> (c < length x)%nat -> elem (0, 0) (meshgrid x y) r c = (nth c x 0, nth r y 0).
Proof.
  intros Hr Hc. unfold elem, meshgrid. apply nth_error_nth.
  erewrite (nth_error_nth (map _ y)); [|apply map_nth_error, (nth_error_nth' y 0); exact Hr].
  apply (map_nth_error (fun xi => (xi, nth r y 0))), nth_error_nth'. exact Hc.
Qed.
Lemma filter_first {A} (f : A -> bool) l x t : filter f l = x :: t -> exists i, nth_error l i = Some x /\ f x = true /\ forall j y, (j < i)%nat -> nth_error l j = Some y -> f y = false.
Proof.
  induction l as [|a l IH]; cbn [filter]; [discriminate|]. destruct (f a) eqn:E.
  - intros H. inversion H; subst. exists 0%nat. split; [reflexivity|]. split; [exact E|]. intros; lia.
  - intros H. destruct (IH H) as (i & H1 & H2 & H3). exists (S i). split; [exact H1|]. split; [exact H2|].
    intros [|j] y Hj Hy; [cbn in Hy; congruence|]. apply (H3 j); [lia|exact Hy].
Qed.

Lemma first_max_spec u v P n : (0 < n)%nat -> length u = n -> length v = n -> rect n n P ->
  exists r c, (r < n)%nat /\ (c < n)%nat /\ first_max u v P = Ok (nth c u 0, nth r v 0) /\
    forall r' c', (r' < n)%nat -> (c' < n)%nat -> elem 0 P r' c' <= elem 0 P r c /\
      ((r' < r)%nat \/ (r' = r /\ (c' < c)%nat) -> elem 0 P r' c' < elem 0 P r c).
Proof.
  intros Hn Lu Lv HP.
  assert (NE : concat P <> []) by (apply (concat_nonempty n); assumption).
  destruct (concat P) as [|p0 pt] eqn:EP; [congruence|]. unfold first_max. rewrite EP. cbn [arr_max bind].
  destruct (fold_Rmax_spec pt p0) as [I L]. set (mx := fold_left Rmax pt p0) in *. rewrite <- EP in *.
  set (cl := combine (concat (meshgrid u v)) (concat P)).
  pose proof (meshgrid_rect u v) as MR. rewrite Lu, Lv in MR.
  assert (CN : forall r c, (r < n)%nat -> (c < n)%nat -> nth_error cl (r * n + c) = Some ((nth c u 0, nth r v 0), elem 0 P r c)).
  { intros r c Hr Hc. unfold cl. rewrite nth_error_combine.
    rewrite (nth_error_concat (0, 0) n n _ r c MR) by assumption. rewrite (nth_error_concat 0 n n _ r c HP) by assumption.
    rewrite meshgrid_elem by lia. reflexivity. }
  assert (CL : length cl = (n * n)%nat) by (unfold cl; rewrite combine_length, (concat_rect_length n n _ MR), (concat_rect_length n n _ HP); lia).
  destruct (filter (fun '(_, p) => Reqb p mx) cl) as [|((a, b), q) t] eqn:EF.
  - exfalso. apply (in_concat_elem 0 P n n) in I; [|exact HP]. destruct I as (r & c & Hr & Hc & E).
    pose proof (CN r c Hr Hc) as H. apply nth_error_In in H.
    assert (In ((nth c u 0, nth r v 0), elem 0 P r c) (filter (fun '(_, p) => Reqb p mx) cl)) as X.
    { apply filter_In. split; [exact H|]. unfold Reqb. destruct (Req_EM_T _ _); congruence. }
    rewrite EF in X. destruct X.
  - apply filter_first in EF. destruct EF as (i & Ei & Eq & Ef).
    assert (Hi : (i < n * n)%nat) by (rewrite <- CL; apply nth_error_Some; congruence).
    assert (Hr : (i / n < n)%nat) by (apply Nat.div_lt_upper_bound; lia).
    assert (Hc : (i mod n < n)%nat) by (apply Nat.mod_upper_bound; lia).
    assert (Hd : i = ((i / n) * n + i mod n)%nat) by (rewrite (Nat.div_mod i n) at 1 by lia; lia).
    exists (i / n)%nat, (i mod n)%nat. split; [exact Hr|]. split; [exact Hc|].
    pose proof (CN _ _ Hr Hc) as H. rewrite <- Hd, Ei in H. inversion H; subst a b q. split; [reflexivity|].
    assert (EM : elem 0 P (i / n) (i mod n) = mx) by (unfold Reqb in Eq; destruct (Req_EM_T (elem 0 P (i / n) (i mod n)) mx); congruence).
    intros r' c' Hr' Hc'. rewrite EM. assert (LE : elem 0 P r' c' <= mx).
    { apply L. apply (in_concat_elem 0 P n n); [exact HP|]. exists r', c'. auto. }
    split; [exact LE|]. intros Before. assert (J : (r' * n + c' < i)%nat).
    { rewrite Hd. destruct Before as [B|[-> B]]; [|lia]. apply (Nat.lt_le_trans _ ((r' + 1) * n)); [lia|].
      apply (Nat.le_trans _ (i / n * n)); [apply Nat.mul_le_mono_r; lia|lia]. }
    pose proof (Ef _ _ J (CN _ _ Hr' Hc')) as X. cbn in X. unfold Reqb in X. destruct (Req_EM_T (elem 0 P r' c') mx); [discriminate|lra].
Qed.

(** ** plot_beam *)
Lemma scaled_le mn mx x y : mn <= mx -> (forall t, t = x \/ t = y -> mn <= t <= mx) -> (scaled mn mx x <= scaled mn mx y <-> x <= y) /\ (scaled mn mx x < scaled mn mx y <-> x < y).
Proof.
  intros H B. pose proof (B x (or_introl eq_refl)). pose proof (B y (or_intror eq_refl)).
  unfold scaled. destruct (Req_EM_T mn mx); [lra|]. assert (D : 0 < / (mx - mn)) by (apply Rinv_0_lt_compat; lra). unfold Rdiv. nra.
Qed.

Section Beam.
Variables (fmt : R -> string) (I K : list R) (wavel : R) (illum : list R -> R -> res (R -> R -> R)) (tel : telgeo) (N : nat) (bf : R) (g : angle_unit).
Hypotheses (Hw : 0 < wavel) (Hpr : 0 < tel_pr tel) (Hbf : 0 < bf) (Hk : 0 < au_per_rad g).
Let rp d := radiation_pattern illum tel I K d wavel N bf.

Lemma one_beam_spec d u v F : rp d = Ok (u, v, F) -> (2 <= N)%nat /\ exists a s mn mx, 0 < s /\ spaced u a s N /\ v = u /\ rect N N F /\
  extent_of (fun x => exists r c, (r < N)%nat /\ (c < N)%nat /\ x = Cmod (at2 F r c) ^ 2) mn mx /\
  one_beam illum tel I K wavel N bf d = Ok (u, v, map2d (scaled mn mx) (power_pattern F)) /\
  array_of (power_pattern F) N N (fun r c => Cmod (at2 F r c) ^ 2) /\
  extent_of (fun t => In t (concat (power_pattern F))) mn mx.
Proof.
  intros E. destruct (axes_api _ _ _ _ _ _ _ _ _ _ _ Hw Hpr Hbf E) as (E1 & E2 & E3 & E4 & E5 & S1 & S2 & S3 & _).
  assert (N2 : (2 <= N)%nat) by (apply (rad_inv _ _ _ _ _ _ _ _ _ _ _ E)).
  split; [exact N2|]. assert (RF : rect N N F) by (split; [exact E3|apply Forall_forall; exact E4]).
  assert (AF : array_of (power_pattern F) N N (fun r c => Cmod (at2 F r c) ^ 2)).
  { apply (array_of_map2d (fun z => Cmod z ^ 2) F N N (at2 F)). apply (array_of_elem (RtoC 0)). exact RF. }
  assert (NE : concat (power_pattern F) <> []) by (apply (concat_nonempty N); [apply AF|lia]).
  destruct (norm2_spec _ NE) as (mn & mx & X & EN).
  assert (IF : forall t, In t (concat (power_pattern F)) <-> exists r c, (r < N)%nat /\ (c < N)%nat /\ t = Cmod (at2 F r c) ^ 2).
  { intros t. rewrite (in_concat_elem 0 _ N N _ (proj1 AF)). split; intros (r & c & Hr & Hc & ->); exists r, c; (split; [exact Hr|]); (split; [exact Hc|]);
      [|symmetry]; unfold elem; apply nth_error_nth; apply AF; assumption. }
  exists ((0 - INR (N / 2)) * (wavel * (INR N - 1) / (2 * (bf * tel_pr tel) * INR N))), (wavel * (INR N - 1) / (2 * (bf * tel_pr tel) * INR N)), mn, mx.
  split; [exact S1|]. split; [split; [exact E2|intros i Hi; rewrite (S2 i Hi); ring]|]. split; [auto|]. split; [exact RF|].
  split; [|split; [|split]].
  - destruct X as (X1 & X2 & X3). split; [apply IF, X1|]. split; [apply IF, X2|]. intros x Hx. apply X3, IF, Hx.
  - unfold one_beam. change (radiation_pattern illum tel I K d wavel N bf) with (rp d). rewrite E. cbn [bind]. rewrite EN. reflexivity.
  - exact AF.
  - exact X.
Qed.

Lemma one_beam_inv d b : one_beam illum tel I K wavel N bf d = Ok b -> exists u v F, rp d = Ok (u, v, F).
Proof.
  unfold one_beam. change (radiation_pattern illum tel I K d wavel N bf) with (rp d). destruct (rp d) as [((u, v), F)|e]; cbn [bind]; [|discriminate].
  intros _. exists u, v, F. reflexivity.
Qed.
Lemma one_beam_err d e : rp d = Err e -> one_beam illum tel I K wavel N bf d = Err e.
Proof. intros E. unfold one_beam. change (radiation_pattern illum tel I K d wavel N bf) with (rp d). rewrite E. reflexivity. Qed.

Notation beam_shown := (shows_beam fmt I K wavel illum tel N bf g).

Lemma beam_panel_ok d u v F first lims : rp d = Ok (u, v, F) ->
  exists b pn, one_beam illum tel I K wavel N bf d = Ok b /\
    beam_panel g first (beam_title fmt d) (to_unit g (fst (fst b))) (to_unit g (snd (fst b))) (fins (snd b))
      (Some (au_per_rad g * fst (fst lims), au_per_rad g * snd (fst lims))) (Some (au_per_rad g * fst (snd lims), au_per_rad g * snd (snd lims))) = Ok pn /\ beam_shown pn first d lims.
Proof.
  intros E. destruct (one_beam_spec _ _ _ _ E) as (N2 & a & s & mn & mx & Hs & Sp & -> & RF & X & OB & AF & X').
  assert (AZ : array_of (fins (map2d (scaled mn mx) (power_pattern F))) N N (fun r c => Fin (scaled mn mx (Cmod (at2 F r c) ^ 2)))).
  { apply (array_of_map2d Fin), (array_of_map2d (scaled mn mx)), AF. }
  destruct (scaled_extent _ N N mn mx (proj1 AF) X') as [M0 M1].
  assert (Ku : spaced (to_unit g u) (au_per_rad g * a) (au_per_rad g * s) N) by (apply spaced_scale, Sp).
  assert (Ks : 0 <= au_per_rad g * s) by nra.
  destruct (beam_panel_spec g first (beam_title fmt d) (to_unit g u) (to_unit g u) _ (Some (au_per_rad g * fst (fst lims), au_per_rad g * snd (fst lims)))
    (Some (au_per_rad g * fst (snd lims), au_per_rad g * snd (snd lims))) _ _ _ _ N N _ _ _ N2 N2 Ks Ks Ku Ku AZ M0 M1) as (pn & B & P & T & XL & YL & SC & X1 & Y1 & _).
  exists (u, u, map2d (scaled mn mx) (power_pattern F)), pn. split; [exact OB|]. split; [exact B|].
  exists u, u, F, mn, mx. split; [exact E|]. split; [exact X|]. split; [exact P|]. auto 10.
Qed.

Lemma Cmod2_le x y : Cmod x ^ 2 <= Cmod y ^ 2 -> Cmod x <= Cmod y.
Proof. intros H. pose proof (Cmod_ge_0 x). pose proof (Cmod_ge_0 y). nra. Qed.
Lemma Cmod2_lt x y : Cmod x ^ 2 < Cmod y ^ 2 -> Cmod x < Cmod y.
Proof. intros H. pose proof (Cmod_ge_0 x). pose proof (Cmod_ge_0 y). nra. Qed.

Lemma limits_ok b0 d1 u v F b2 plim : rp d1 = Ok (u, v, F) ->
  exists b1 lims, one_beam illum tel I K wavel N bf d1 = Ok b1 /\
    match plim with Some p => Ok p | None => default_limits tel wavel (b0 :: b1 :: b2) end = Ok lims /\
    limits_of I K wavel illum tel N bf d1 plim lims /\ (plim = None -> fst (snd lims) <> snd (snd lims)).
Proof.
  intros E. destruct (one_beam_spec _ _ _ _ E) as (N2 & a & s & mn & mx & Hs & Sp & -> & RF & X & OB & AF & X').
  eexists _. destruct plim as [p|].
  - exists p. split; [exact OB|]. split; [reflexivity|]. split; [reflexivity|discriminate].
  - set (P := map2d (scaled mn mx) (power_pattern F)) in *.
    assert (AP : array_of P N N (fun r c => scaled mn mx (Cmod (at2 F r c) ^ 2))) by (apply (array_of_map2d (scaled mn mx)), AF).
    assert (EP : forall r c, (r < N)%nat -> (c < N)%nat -> elem 0 P r c = scaled mn mx (Cmod (at2 F r c) ^ 2)).
    { intros r c Hr Hc. unfold elem. apply nth_error_nth. apply AP; assumption. }
    destruct (first_max_spec u u P N ltac:(lia) (proj1 Sp) (proj1 Sp) (proj1 AP)) as (r & c & Hr & Hc & EF & M).
    eexists. split; [exact OB|]. split; [|split].
    + unfold default_limits. cbn [py_get nth_error bind]. unfold py_get. cbn [nth_error bind]. rewrite EF. cbn [bind]. reflexivity.
    + exists u, u, F, r, c. split; [exact E|]. split; [exact Hr|]. split; [exact Hc|]. split.
      * intros r' c' Hr' Hc'. destruct (M r' c' Hr' Hc') as [M1 M2]. rewrite !EP in M1, M2 by assumption.
        assert (B : forall t, t = Cmod (at2 F r' c') ^ 2 \/ t = Cmod (at2 F r c) ^ 2 -> mn <= t <= mx).
        { intros t [->| ->]; apply X; [exists r', c'|exists r, c]; auto. }
        assert (Hle : mn <= mx) by (specialize (B _ (or_introl eq_refl)); lra).
        destruct (scaled_le mn mx _ _ Hle B) as [S1 S2]. split; [apply Cmod2_le, S1, M1|intros Bf; apply Cmod2_lt, S2, M2, Bf].
      * cbv zeta. f_equal; f_equal; ring.
    + intros _. cbn [fst snd]. assert (0 < 1.22 * wavel / (2 * tel_pr tel)) by (apply Rmult_lt_0_compat; [lra|apply Rinv_0_lt_compat; lra]). lra.
Qed.

Lemma mapM_app_cons {A B} (f : A -> res B) x t l : mapM f (x :: t) = Ok l -> exists y ys, f x = Ok y /\ mapM f t = Ok ys /\ l = y :: ys.
Proof.
  cbn [mapM]. destruct (f x) as [y|]; cbn [bind]; [|discriminate]. destruct (mapM f t) as [ys|]; cbn [bind]; [|discriminate].
  intros E. inversion E. eauto.
Qed.
Lemma mapM_all {A B} (f : A -> res B) l : (forall x, In x l -> exists y, f x = Ok y) -> exists ys, mapM f l = Ok ys /\ length ys = length l.
Proof.
  induction l as [|x t IH]; intros H; [exists []; auto|]. destruct (H x (or_introl eq_refl)) as [y Ey].
  destruct IH as (ys & E & L); [intros z Hz; apply H; right; exact Hz|]. exists (y :: ys). cbn [mapM]. rewrite Ey. cbn [bind]. rewrite E. cbn. auto.
Qed.

Lemma uv_ratio2 a b c d : c <> d -> exists s, uv_ratio 1 1 [a; b] [c; d] = Ok s.
Proof.
  intros H. unfold uv_ratio, arr_max, arr_min. cbn [fold_left bind]. unfold Reqb. destruct (Req_EM_T _ _) as [E|_]; [|eexists; reflexivity].
  exfalso. unfold Rmax, Rmin in E. destruct (Rle_dec c d); lra.
Qed.
Lemma uv_ratio2_inv a b c d s : uv_ratio 1 1 [a; b] [c; d] = Ok s -> c <> d.
Proof.
  unfold uv_ratio, arr_max, arr_min. cbn [fold_left bind]. unfold Reqb. destruct (Req_EM_T _ _) as [E|E]; [discriminate|].
  intros _ ->. apply E. unfold Rmax, Rmin. destruct (Rle_dec d d); lra.
Qed.

Lemma plot_beam_three d0 d1 d2 rest plim title : (forall d, In d (d0 :: d1 :: d2 :: rest) -> exists r, rp d = Ok r) ->
  exists lims, limits_of I K wavel illum tel N bf d1 plim lims /\ (plim = None -> fst (snd lims) <> snd (snd lims)) /\
    (fst (snd lims) = snd (snd lims) -> plot_beam fmt I K (d0 :: d1 :: d2 :: rest) wavel illum tel N bf plim g title = Err ZeroDivisionError) /\
    (fst (snd lims) <> snd (snd lims) -> exists size p0 p1 p2,
       plot_beam fmt I K (d0 :: d1 :: d2 :: rest) wavel illum tel N bf plim g title = Ok {| fg_size := size; fg_title := title; fg_panels := [p0; p1; p2] |} /\
       beam_shown p0 true d0 lims /\ beam_shown p1 false d1 lims /\ beam_shown p2 false d2 lims).
Proof.
  intros H.
  assert (G : forall d, In d (d0 :: d1 :: d2 :: rest) -> exists u v F, rp d = Ok (u, v, F)).
  { intros d Hd. destruct (H d Hd) as [((u, v), F) E]. eauto. }
  destruct (G d0) as (u0 & v0 & F0 & E0); [simpl; auto|]. destruct (G d1) as (u1 & v1 & F1 & E1); [simpl; auto|]. destruct (G d2) as (u2 & v2 & F2 & E2); [simpl; auto|].
  destruct (mapM_all (one_beam illum tel I K wavel N bf) rest) as (bs & EB & _).
  { intros d Hd. destruct (G d) as (u & v & F & E); [simpl; auto|]. destruct (one_beam_spec _ _ _ _ E) as (_ & a & s & mn & mx & _ & _ & _ & _ & _ & OB & _). eauto. }
  assert (B0 : exists b0, one_beam illum tel I K wavel N bf d0 = Ok b0) by (destruct (one_beam_spec _ _ _ _ E0) as (_ & a & s & mn & mx & _ & _ & _ & _ & _ & OB & _); eauto).
  assert (B2 : exists b2, one_beam illum tel I K wavel N bf d2 = Ok b2) by (destruct (one_beam_spec _ _ _ _ E2) as (_ & a & s & mn & mx & _ & _ & _ & _ & _ & OB & _); eauto).
  destruct B0 as [b0 B0]. destruct B2 as [b2 B2].
  destruct (limits_ok b0 d1 u1 v1 F1 (b2 :: bs) plim E1) as (b1 & lims & B1 & EL & LO & LN).
  exists lims. split; [exact LO|]. split; [exact LN|].
  destruct (beam_panel_ok d0 u0 v0 F0 true lims E0) as (b0' & p0 & Q0 & P0 & S0).
  destruct (beam_panel_ok d1 u1 v1 F1 false lims E1) as (b1' & p1 & Q1 & P1 & S1).
  destruct (beam_panel_ok d2 u2 v2 F2 false lims E2) as (b2' & p2 & Q2 & P2 & S2).
  rewrite B0 in Q0. rewrite B1 in Q1. rewrite B2 in Q2. inversion Q0; subst b0'. inversion Q1; subst b1'. inversion Q2; subst b2'. clear Q0 Q1 Q2.
  assert (UNF : plot_beam fmt I K (d0 :: d1 :: d2 :: rest) wavel illum tel N bf plim g title =
    bind (uv_ratio 1 1 [au_per_rad g * fst (fst lims); au_per_rad g * snd (fst lims)] [au_per_rad g * fst (snd lims); au_per_rad g * snd (snd lims)]) (fun size =>
      Ok {| fg_size := size; fg_title := title; fg_panels := [p0; p1; p2] |})).
  { unfold plot_beam. cbn [mapM]. rewrite B0, B1, B2, EB. cbn [bind]. rewrite EL. destruct lims as ((ua, ub), (va, vb)). cbn [bind fst snd] in *.
    unfold beam_titles. cbn [mapM]. unfold py_get. cbn [nth_error bind].
    destruct (uv_ratio 1 1 _ _) as [size|]; cbn [bind]; [|reflexivity].
    cbn [nth_error bind Nat.eqb].
    destruct b0 as ((bu0, bv0), bp0). destruct b1 as ((bu1, bv1), bp1). destruct b2 as ((bu2, bv2), bp2). cbn [fst snd bind] in *.
    rewrite P0. cbn [bind]. rewrite P1. cbn [bind]. rewrite P2. cbn [bind]. reflexivity. }
  rewrite UNF. split.
  - intros Eq. rewrite Eq. unfold uv_ratio, arr_max, arr_min. cbn [fold_left bind]. unfold Reqb. destruct (Req_EM_T _ _) as [_|NE]; [reflexivity|].
    exfalso. apply NE. unfold Rmax, Rmin. destruct (Rle_dec _ _); lra.
  - intros NE. destruct (uv_ratio2 (au_per_rad g * fst (fst lims)) (au_per_rad g * snd (fst lims)) (au_per_rad g * fst (snd lims)) (au_per_rad g * snd (snd lims))) as [size ES].
    { intros Eq. apply NE. apply (Rmult_eq_reg_l (au_per_rad g)); lra. }
    rewrite ES. cbn [bind]. exists size, p0, p1, p2. auto.
Qed.

Lemma plot_beam_patterns d_z plim title fig : plot_beam fmt I K d_z wavel illum tel N bf plim g title = Ok fig ->
  (3 <= length d_z)%nat /\ forall d, In d d_z -> exists r, rp d = Ok r.
Proof.
  unfold plot_beam. intros H. destruct (mapM (one_beam illum tel I K wavel N bf) d_z) as [beams|] eqn:EM; cbn [bind] in H; [|discriminate]. split.
  - destruct (match plim with Some p => Ok p | None => default_limits tel wavel beams end) as [((ua, ub), (va, vb))|]; cbn [bind] in H; [|discriminate].
    destruct d_z as [|d0 [|d1 [|d2 rest]]]; [discriminate|discriminate|discriminate|simpl; lia].
  - clear H. revert beams EM. induction d_z as [|d t IH]; intros beams EM x Hx; [destruct Hx|].
    apply mapM_app_cons in EM. destruct EM as (y & ys & E1 & E2 & _). destruct Hx as [<-|Hx].
    + apply one_beam_inv in E1. destruct E1 as (u & v & F & E). eauto.
    + apply (IH ys E2 x Hx).
Qed.

Lemma plot_beam_few d_z plim title : (length d_z < 3)%nat -> (forall d, In d d_z -> exists r, rp d = Ok r) ->
  plot_beam fmt I K d_z wavel illum tel N bf plim g title = Err IndexError.
Proof.
  intros L H. assert (G : forall d, In d d_z -> exists u v F, rp d = Ok (u, v, F)) by (intros d Hd; destruct (H d Hd) as [((u, v), F) E]; eauto).
  destruct d_z as [|d0 [|d1 [|d2 rest]]]; [| | |simpl in L; lia].
  - unfold plot_beam. cbn [mapM bind]. destruct plim as [((ua, ub), (va, vb))|]; reflexivity.
  - destruct (G d0) as (u & v & F & E); [simpl; auto|]. destruct (one_beam_spec _ _ _ _ E) as (_ & a & s & mn & mx & _ & _ & _ & _ & _ & OB & _).
    unfold plot_beam. cbn [mapM bind]. rewrite OB. cbn [bind]. destruct plim as [((ua, ub), (va, vb))|]; reflexivity.
  - destruct (G d0) as (u & v & F & E); [simpl; auto|]. destruct (one_beam_spec _ _ _ _ E) as (_ & a & s & mn & mx & _ & _ & _ & _ & _ & OB & _).
    destruct (G d1) as (u1 & v1 & F1 & E1); [simpl; auto|].
    destruct (limits_ok (u, v, map2d (scaled mn mx) (power_pattern F)) d1 u1 v1 F1 [] plim E1) as (b1 & lims & B1 & EL & _).
    unfold plot_beam. cbn [mapM bind]. rewrite OB, B1. cbn [bind]. rewrite EL. destruct lims as ((ua, ub), (va, vb)). reflexivity.
Qed.
End Beam.
