(** Rounding errors of the residual: the three maps together. *)
From Coq Require Import Reals List Lra Lia ZArith.
From Verif Require Import PyBase PyLib Sums Num MMath MAperture MTel MRad MCore SMath SCore SFloat MFloat MFloat2 MFloat3 MFloat4 MFloat5 SRad SGain SRound SRound2 SRound3 SRound4 POrder64 PRound PRound4 PRound5 PRound9 PRound10 PRad PFar PResid PSim PNorm PEnd PLip PLip2 PRound14 PRound15 PRound16 PRound17 PRound28.
From Coquelicot Require Import Complex.
Import ListNotations.
Open Scope R_scope.
Open Scope list_scope.

Section Residual.
Variables (m : maths) (illum illum64 : list R -> R -> res (R -> R -> R)) (tel tel64 : telgeo) (i1 i2 i3 i4 i5 : R) (K : list R) (pr bf wavel : R) (N : nat) (top : R) (loss : R -> R) (reach : R -> Prop).
Variables (beam : list (list num)) (u_data v_data : list (list R)) (d_z : list R) (M : nat).
Hypotheses (HN : INR N <= 2 ^ 20) (top_tiny : / 2 ^ 200 <= top) (step_tiny : forall z, reach z -> (2 <= N)%nat /\ tiny <= grid_step pr wavel N bf) (loss_small : forall z, reach z -> loss z <= 2 / 1000)
  (pattern_both : forall z, reach z -> exists ua F0 ua64 F64, radiation_pattern illum tel [i1; i2; i3; i4; i5] K z wavel N bf = Ok (ua, ua, F0) /\ radiation_pattern64 m illum64 tel64 [i1; i2; i3; i4; i5] K z wavel N bf = Ok (ua64, ua64, F64) /\
  length ua = N /\ length ua64 = N /\ (forall k, (k < N)%nat -> nth k ua 0 = (INR k - INR (N / 2)) * grid_step pr wavel N bf) /\ (forall k, (k < N)%nat -> Rabs (nth k ua64 0 - nth k ua 0) <= INR N * / 2 ^ 49 * Rabs (nth k ua 0)) /\
  forall j i, (j < N)%nat -> (i < N)%nat -> Rabs (nth i (nth j (power_pattern64 m F64) []) 0 - nth i (nth j (power_pattern F0) []) 0) <= 5 * loss z * top /\ 0 <= nth i (nth j (power_pattern F0) []) 0 <= top)
  (Hw : forall z, In z d_z -> reach z)
  (HM : (0 < M)%nat) (Lb : map (@length num) beam = [M; M; M]) (Lu : map (@length R) u_data = [M; M; M]) (Lv : map (@length R) v_data = [M; M; M]) (Lz : length d_z = 3%nat).
Let ex := residual_true illum tel ([i1; i2; i3; i4; i5] ++ K) beam u_data v_data d_z wavel N bf.
Let fx := residual_true64 m illum64 tel64 ([i1; i2; i3; i4; i5] ++ K) beam u_data v_data d_z wavel N bf.

Lemma residual_api l D : (forall z, In z d_z -> loss z <= l) ->
  (forall x, In x (concat u_data ++ concat v_data) -> well_inside (grid_step pr wavel N bf) N x) -> (forall b, In b beam -> resolved b) -> 0 < D ->
  (forall i, (i < 3)%nat -> exists row s t, model_row illum tel ([i1; i2; i3; i4; i5] ++ K) u_data v_data d_z wavel N bf i = Ok row /\ In s row /\ In t row /\ D <= t - s) ->
  exists r r64, ex = Ok r /\ fx = Ok r64 /\ Forall2 (fun x x64 => Rabs (x64 - x) <= 4 * ((5 * l + INR N ^ 2 * / 2 ^ 46) * top) / D + 10 * u) r r64.
Proof.
  intros Hl HP Hr HD HC. unfold ex, fx. clear ex fx.
  destruct (three_lengths beam M Lb) as (b0 & b1 & b2 & -> & B0 & B1 & B2). destruct (three_lengths u_data M Lu) as (xs0 & xs1 & xs2 & -> & X0 & X1 & X2). destruct (three_lengths v_data M Lv) as (ys0 & ys1 & ys2 & -> & Y0 & Y1 & Y2).
  destruct d_z as [|z0 [|z1 [|z2 [|]]]]; try discriminate. clear Lb Lu Lv Lz.
  assert (HPi : forall xs ys, In xs [xs0; xs1; xs2] -> In ys [ys0; ys1; ys2] -> forall x, In x (xs ++ ys) -> well_inside (grid_step pr wavel N bf) N x).
  { intros xs ys I1 I2 x I3. apply HP. apply in_app_iff in I3 as [I3|I3]; apply in_app_iff; [left|right]; apply in_concat; eexists; split; eassumption. } clear HP.
  assert (Row : forall i z xs ys, nth_error [z0; z1; z2] i = Some z -> nth_error [xs0; xs1; xs2] i = Some xs -> nth_error [ys0; ys1; ys2] i = Some ys -> length xs = M -> length ys = M ->
    exists row row64, model_row illum tel ([i1; i2; i3; i4; i5] ++ K) [xs0; xs1; xs2] [ys0; ys1; ys2] [z0; z1; z2] wavel N bf i = Ok row /\ length row = M /\ length row64 = M /\
      model_row64 m illum64 tel64 ([i1; i2; i3; i4; i5] ++ K) [xs0; xs1; xs2] [ys0; ys1; ys2] [z0; z1; z2] wavel N bf i = Ok row64 /\
      exists p p64, norm_all (map Fin row) = Ok p /\ norm_row64 (map Fin row64) = Ok p64 /\ Forall2 (fun x x64 => Rabs (x64 - x) <= 4 * ((5 * l + INR N ^ 2 * / 2 ^ 46) * top) / D + 4 * u) p p64 /\ length p = M /\ forall x, In x p64 -> 0 <= x <= 1).
  { intros i z xs ys Ez Ex Ey Lx Ly. assert (Iz := nth_error_In _ _ Ez). assert (Hi : (i < 3)%nat) by (apply (nth_error_Some [z0; z1; z2]); rewrite Ez; discriminate).
    destruct (PRound28.row_api m illum illum64 tel tel64 i1 i2 i3 i4 i5 K pr bf wavel N top loss reach HN top_tiny step_tiny loss_small pattern_both _ _ _ i z xs ys l (Hw z Iz) (Hl z Iz) Ez Ex Ey ltac:(lia) (HPi xs ys (nth_error_In _ _ Ex) (nth_error_In _ _ Ey))) as (row & row64 & E1 & L1 & E2 & Cl).
    exists row, row64. split; [exact E1|]. split; [lia|]. split; [rewrite (close_length _ _ _ Cl); lia|]. split; [exact E2|].
    destruct (HC i Hi) as (row' & s & t & E1' & Is & It & Hst). rewrite E1 in E1'. apply Ok_inj in E1'. subst row'.
    assert (Te : tiny <= (5 * l + INR N ^ 2 * / 2 ^ 46) * top).
    { pose proof top_tiny as Ht. destruct (step_tiny z (Hw z Iz)) as (N2 & _). destruct small_300 as [T3 _].
      assert (G2 : INR 2 ^ 2 <= INR N ^ 2) by (apply pow_incr; split; [apply pos_INR|apply le_INR, N2]). cbn [INR] in G2. assert (P46 : 0 < / 2 ^ 46) by (apply Rinv_0_lt_compat, pow_lt; lra). assert (P200 : 0 < / 2 ^ 200) by (apply Rinv_0_lt_compat, pow_lt; lra).
      assert (L0 : 0 <= l).
      { destruct (pattern_both z (Hw z Iz)) as (_ & F0 & _ & F64 & _ & _ & _ & _ & _ & _ & Pw). destruct (Pw 0%nat 0%nat ltac:(lia) ltac:(lia)) as [Q _]. pose proof (Rle_trans _ _ _ (Rabs_pos _) Q) as Q'. apply Rle_trans with (2 := Hl z Iz). apply Rmult_le_reg_r with (5 * top); lra. }
      apply Rle_trans with (1 := T3). apply Rle_trans with (/ 2 ^ 46 * / 2 ^ 200); [rewrite <- Rinv_mult, <- pow_add; apply Rinv_le_contravar; [apply pow_lt; lra|apply Rle_pow; [lra|lia]]|]. apply Rmult_le_compat; [lra|lra| |exact Ht].
      assert (1 * / 2 ^ 46 <= INR N ^ 2 * / 2 ^ 46) by (apply Rmult_le_compat_r; lra). lra. }
    destruct (norm_model _ D row row64 Te HD Cl (ex_intro _ s (ex_intro _ t (conj Is (conj It Hst))))) as (p & p64 & P1 & P2 & P3). exists p, p64. split; [exact P1|]. split; [exact P2|]. split; [exact P3|].
    split; [destruct (norm_range _ _ P1) as [-> _]; rewrite map_length; lia|].
    destruct (norm_row64_range (map Fin row64)) as (p' & P2' & _ & R'). { intros Q. apply map_eq_nil in Q. subst row64. apply close_length in Cl. cbn in Cl. destruct row; [contradiction|discriminate]. } rewrite P2 in P2'. apply Ok_inj in P2'. subst p'. exact R'. }
  assert (Dat : forall b, In b [b0; b1; b2] -> length b = M -> exists p p64, norm_all b = Ok p /\ norm_row64 b = Ok p64 /\ Forall2 (fun x x64 => Rabs (x64 - x) <= 4 * u) p p64 /\ length p = M /\ forall x, In x p64 -> 0 <= x <= 1).
  { intros b Ib Lb. assert (Nb : b <> []) by (intros ->; cbn in Lb; lia). destruct (norm_resolved b Nb (Hr b Ib)) as (p & p64 & P1 & P2 & P3). exists p, p64. split; [exact P1|]. split; [exact P2|]. split; [exact P3|].
    split; [destruct (norm_range _ _ P1) as [-> _]; exact Lb|]. destruct (norm_row64_range b Nb) as (p' & P2' & _ & R'). rewrite P2 in P2'. apply Ok_inj in P2'. subst p'. exact R'. }
  destruct (Row 0%nat z0 xs0 ys0 eq_refl eq_refl eq_refl X0 Y0) as (r0 & r0' & R0 & R0l & R0l' & R0' & p0 & p0' & P0 & P0' & P0e & P0l & P0r).
  destruct (Row 1%nat z1 xs1 ys1 eq_refl eq_refl eq_refl X1 Y1) as (r1 & r1' & R1 & R1l & R1l' & R1' & p1 & p1' & P1 & P1' & P1e & P1l & P1r).
  destruct (Row 2%nat z2 xs2 ys2 eq_refl eq_refl eq_refl X2 Y2) as (r2 & r2' & R2 & R2l & R2l' & R2' & p2 & p2' & P2 & P2' & P2e & P2l & P2r).
  destruct (Dat b0 (or_introl eq_refl) B0) as (d0 & d0' & D0 & D0' & D0e & D0l & D0r). destruct (Dat b1 (or_intror (or_introl eq_refl)) B1) as (d1 & d1' & D1 & D1' & D1e & D1l & D1r). destruct (Dat b2 (or_intror (or_intror (or_introl eq_refl))) B2) as (d2 & d2' & D2 & D2' & D2e & D2l & D2r).
  unfold residual_true, residual_true64. cbv zeta. cbn [map]. rewrite (fill3 _ _ _ _ r0 r1 r2 R0 R1 R2) by (rewrite map_length; lia). rewrite (fill3 _ _ _ _ r0' r1' r2' R0' R1' R2') by (rewrite map_length; lia). cbn [bind map].
  rewrite (norm_rows_3 _ _ _ _ _ _ D0 D1 D2), (norm_rows64_3 _ _ _ _ _ _ D0' D1' D2'), (norm_rows_3 _ _ _ _ _ _ P0 P1 P2), (norm_rows64_3 _ _ _ _ _ _ P0' P1' P2'). cbn [bind map2].
  eexists. eexists. split; [reflexivity|]. split; [reflexivity|]. set (w := 4 * _ / D) in *.
  assert (Fin3 : forall d d' p p', Forall2 (fun x x64 => Rabs (x64 - x) <= 4 * u) d d' -> Forall2 (fun x x64 => Rabs (x64 - x) <= w + 4 * u) p p' -> (forall x, In x d' -> 0 <= x <= 1) -> (forall x, In x p' -> 0 <= x <= 1) -> length d = length p ->
    Forall2 (fun x x64 => Rabs (x64 - x) <= w + 10 * u) (map2 Rminus d p) (map2 (fun s t => fl (s - t)) d' p')).
  { intros d d' p p' F1 F2 A1 A2 A3. pose proof (diff64 _ _ _ _ _ _ F1 F2 A1 A2 A3) as Q. refine (Forall2_impl' _ _ _ _ _ Q). intros x x64 Hx. cbv beta in Hx. lra. }
  apply Forall2_concat3; apply Fin3; try assumption; lia.
Qed.

Lemma residual_outside : (exists x, In x (concat u_data ++ concat v_data) /\ well_outside (grid_step pr wavel N bf) N x) -> ex = Err ValueError /\ fx = Err ValueError.
Proof.
  intros (x & Ix & Ox). unfold ex, fx. clear ex fx.
  destruct (three_lengths beam M Lb) as (b0 & b1 & b2 & -> & B0 & B1 & B2). destruct (three_lengths u_data M Lu) as (xs0 & xs1 & xs2 & -> & X0 & X1 & X2). destruct (three_lengths v_data M Lv) as (ys0 & ys1 & ys2 & -> & Y0 & Y1 & Y2).
  destruct d_z as [|z0 [|z1 [|z2 [|]]]]; try discriminate. clear Lb Lu Lv Lz.
  pose proof (PRound28.row_total m illum illum64 tel tel64 i1 i2 i3 i4 i5 K pr bf wavel N top loss reach HN step_tiny pattern_both [xs0; xs1; xs2] [ys0; ys1; ys2] [z0; z1; z2]) as T.
  destruct (T 0%nat z0 xs0 ys0 (Hw z0 (or_introl eq_refl)) eq_refl eq_refl eq_refl ltac:(lia)) as (E0 & F0 & O0). destruct (T 1%nat z1 xs1 ys1 (Hw z1 (or_intror (or_introl eq_refl))) eq_refl eq_refl eq_refl ltac:(lia)) as (E1 & F1 & O1).
  destruct (T 2%nat z2 xs2 ys2 (Hw z2 (or_intror (or_intror (or_introl eq_refl)))) eq_refl eq_refl eq_refl ltac:(lia)) as (E2 & F2 & O2). clear T.
  assert (O : (exists x, In x (xs0 ++ ys0) /\ well_outside (grid_step pr wavel N bf) N x) \/ (exists x, In x (xs1 ++ ys1) /\ well_outside (grid_step pr wavel N bf) N x) \/ (exists x, In x (xs2 ++ ys2) /\ well_outside (grid_step pr wavel N bf) N x)).
  { cbn [concat] in Ix. rewrite !app_nil_r, !in_app_iff in Ix. destruct Ix as [[I|[I|I]]|[I|[I|I]]]; [left|right; left|right; right|left|right; left|right; right]; exists x; (split; [apply in_app_iff; tauto|exact Ox]). } clear Ix Ox.
  set (ex := model_row _ _ _ _ _ _ _ _ _) in *. set (fx := model_row64 _ _ _ _ _ _ _ _ _ _) in *.
  assert (Fl : forall f : nat -> res (list R), ((exists r, f 0%nat = Ok r /\ length r = length xs0) \/ f 0%nat = Err ValueError) -> ((exists r, f 1%nat = Ok r /\ length r = length xs1) \/ f 1%nat = Err ValueError) -> ((exists r, f 2%nat = Ok r /\ length r = length xs2) \/ f 2%nat = Err ValueError) ->
    (f 0%nat = Err ValueError \/ f 1%nat = Err ValueError \/ f 2%nat = Err ValueError) -> fill_rows f [0; 1; 2]%nat (map (map (fun _ => 0)) [b0; b1; b2]) = Err ValueError).
  { clear - B0 B1 B2 X0 X1 X2. intros f A0 A1 A2 A. cbn [map fill_rows]. set (w0 := map (fun _ => 0) b0). set (w1 := map (fun _ => 0) b1). set (w2 := map (fun _ => 0) b2).
    assert (W0 : length w0 = length xs0) by (unfold w0; rewrite map_length; lia). assert (W1 : length w1 = length xs1) by (unfold w1; rewrite map_length; lia). clearbody w0 w1 w2.
    destruct A0 as [(r0 & E0 & L0)|E0]; [rewrite E0 in A |- *|rewrite E0; reflexivity]. unfold assign_row, py_get. cbn [nth_error bind]. rewrite L0, W0, Nat.eqb_refl. unfold py_set. cbn [length Nat.ltb Nat.leb set_nth bind nth_error].
    destruct A1 as [(r1 & E1 & L1)|E1]; [rewrite E1 in A |- *|rewrite E1; reflexivity]. cbn [bind nth_error]. rewrite L1, W1, Nat.eqb_refl. cbn [bind set_nth nth_error].
    destruct A2 as [(r2 & E2 & L2)|E2]; [|rewrite E2; reflexivity]. rewrite E2 in A. destruct A as [A|[A|A]]; discriminate. }
  unfold residual_true, residual_true64. cbv zeta. fold ex fx. rewrite (Fl ex E0 E1 E2), (Fl fx F0 F1 F2); [split; reflexivity| |].
  - destruct O as [O|[O|O]]; [left; apply O0, O|right; left; apply O1, O|right; right; apply O2, O].
  - destruct O as [O|[O|O]]; [left; apply O0, O|right; left; apply O1, O|right; right; apply O2, O].
Qed.
End Residual.
