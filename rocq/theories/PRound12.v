(** Rounding errors of the mask and of the sampled aperture field. *)
From Coq Require Import Reals List Lra Lia ZArith.
From Verif Require Import PyBase PyLib Sums Num MZernike SZernike MMath MAperture MTel MRad SFloat MFloat MFloat2 MFloat3 MFloat4 SRound SRound2 SRound3 PPolar PWave PPhase PPhase2 POrder64 PRound PRound2 PRound3 PRound4 PRound5 PRound6 PRound8 PRound9 PRound10 PRound11 PSim PRad.
From Coquelicot Require Import Complex.
Import ListNotations.
Open Scope R_scope.

Lemma Rltb_same (a b a' b' t : R) : Rabs (a' - a) + Rabs (b' - b) <= t -> t < Rabs (a - b) -> Rltb a' b' = Rltb a b.
Proof.
  intros H H'. pose proof (Rabs_pos (a' - a)). pose proof (Rabs_pos (b' - b)). assert (A : - t <= (a' - a) - (b' - b) <= t). { apply Rabs_le_iff. eapply Rle_trans; [apply Rabs_triang|]. rewrite Rabs_Ropp. exact H. }
  unfold Rltb. destruct (Rlt_dec a' b') as [L|L], (Rlt_dec a b) as [M|M]; try reflexivity; exfalso.
  - rewrite Rabs_pos_eq in H' by lra. lra.
  - rewrite Rabs_left in H' by lra. lra.
Qed.

Section Grid.
Variables (e pr bf : R) (N : nat).
Hypothesis Ue : u <= e.
Hypothesis E1 : e <= / 1000.
Hypothesis Hpr : / 2 ^ 100 <= pr.
Hypothesis Hbf : 1 <= bf.
Hypothesis Hmax : pr * bf <= 2 ^ 100.
Hypothesis HN : INR N <= 2 ^ 40.
Hypothesis N2 : (2 <= N)%nat.
Let B := pr * bf.
Let B64 := fl B.
Let x64 (i : nat) := linspace64 (- B64) B64 N i.

Lemma B_ge : pr <= B /\ / 2 ^ 100 <= B.
Proof. assert (P0 : 0 < / 2 ^ 100) by (apply Rinv_0_lt_compat, pow_lt; lra). assert (pr <= B) by (unfold B; nra). lra. Qed.
Lemma node_scale a b i : node a N i - node b N i = (a - b) * node 1 N i.
Proof. unfold node. unfold Rdiv. ring. Qed.
Lemma box_grid i : (i < N)%nat -> near e 10 B (x64 i) (node B N i).
Proof.
  intros Hi. destruct B_ge as [Bp B1]. assert (P0 : 0 < / 2 ^ 100) by (apply Rinv_0_lt_compat, pow_lt; lra). destruct (box_err B (conj B1 Hmax)) as [Rb Rg]. fold B64 in Rb, Rg. unfold rel in Rb. rewrite (Rabs_pos_eq B) in Rb by lra.
  assert (Hn : INR N <= 2 ^ 50) by (eapply Rle_trans; [exact HN|]; apply Rle_pow; [lra|lia]).
  assert (Tb : tiny * 2 ^ 60 <= B64). { destruct small_300 as [T3 _]. apply Rle_trans with (/ 2 ^ 110); [|lra]. apply Rle_trans with (/ 2 ^ 300 * 2 ^ 60); [apply Rmult_le_compat_r; [apply pow_le; lra|exact T3]|lra]. }
  pose proof (grid_err B64 N i Tb Hn N2 Hi) as G. pose proof (node_range 1 N i ltac:(lra) Hi) as N1. split; [|apply node_range; [lra|exact Hi]].
  replace (x64 i - node B N i) with ((x64 i - node B64 N i) + (node B64 N i - node B N i)) by ring. rewrite node_scale. eapply Rle_trans; [apply Rabs_triang|]. rewrite Rabs_mult. unfold x64. pose proof (Rabs_pos (B64 - B)). apply Rabs_le_iff in Rb as Rb'. rewrite u_val in *.
  assert (Rabs (B64 - B) * Rabs (node 1 N i) <= Rabs (B64 - B) * 1) by (apply Rmult_le_compat_l; lra).
  assert (94 / 10 * / 9007199254740992 * B <= 10 * e * B) by (apply Rmult_le_compat_r; lra). lra.
Qed.

(** ** The mask *)
Variables (sr a L : R).
Hypothesis Hsr : 0 <= sr <= pr.
Hypothesis HL : 0 <= sr + L <= B.
Hypothesis H_a : 0 <= a.
Lemma block_agrees i j : (i < N)%nat -> (j < N)%nat -> clear (100 * e) B pr sr a L (node B N i) (node B N j) ->
  block_manual64 pr sr a L (x64 i) (x64 j) = block_manual pr sr a L (node B N i) (node B N j).
Proof.
  intros Hi Hj (C1 & C2 & C3). destruct B_ge as [Bp B1]. pose proof (e_pos e Ue) as P. assert (P0 : 0 < / 2 ^ 100) by (apply Rinv_0_lt_compat, pow_lt; lra). assert (B0 : 0 < B) by lra. assert (BB : 0 < B * B) by nra. pose proof tiny_pos as Tp. destruct small_300 as [T3 _].
  assert (TB : tiny <= B) by (apply Rle_trans with (/ 2 ^ 100); lra).
  assert (TBB : tiny <= B * B). { apply Rle_trans with (/ 2 ^ 100 * / 2 ^ 100); [|apply Rmult_le_compat; lra]. eapply Rle_trans; [exact T3|]. rewrite <- Rinv_mult, <- pow_add. apply Rinv_le_contravar; [apply pow_lt; lra|apply Rle_pow; [lra|lia]]. }
  pose proof (box_grid i Hi) as Gx. pose proof (box_grid j Hj) as Gy. set (x := node B N i) in *. set (y := node B N j) in *. set (xx := x64 i) in *. set (yy := x64 j) in *. clearbody x y xx yy.
  assert (Sq : forall z zz, near e 10 B zz z -> near e (111 / 5) (B * B) (square64 zz) (z * z)).
  { intros z zz G. pose proof (near_mul e Ue 10 10 B B zz z zz z ltac:(lra) ltac:(lra) G G) as M. apply near_le with (k := 10 + 11 / 10 * 10 + 6 / 5); [exact Ue|lra|]. apply near_fl; [exact Ue|exact E1|exact TBB|lra|exact M]. }
  pose proof (near_add e _ _ _ _ _ _ _ (Sq x xx Gx) (Sq y yy Gy)) as S1. assert (S2 : near e (117 / 5) (B * B + B * B) (fl (square64 xx + square64 yy)) (x * x + y * y)). { apply near_le with (k := 111 / 5 + 6 / 5); [exact Ue|lra|]. apply near_fl; [exact Ue|exact E1|lra|lra|exact S1]. }
  destruct S2 as [S2 _]. assert (Sr : forall z, 0 <= z <= B -> Rabs (square64 z - z ^ 2) <= 2 * e * (B * B)).
  { intros z Hz. unfold square64. replace (z ^ 2) with (z * z) by ring. eapply Rle_trans; [apply (fl_err e _ Ue)|]. rewrite Rabs_pos_eq by nra. assert (z * z <= B * B) by nra. nra. }
  pose proof (Sr pr ltac:(lra)) as Sp. pose proof (Sr sr ltac:(lra)) as Ss.
  assert (F : Rabs (fl (sr + L) - (sr + L)) <= 2 * e * B). { eapply Rle_trans; [apply (fl_err e _ Ue)|]. rewrite Rabs_pos_eq by lra. nra. }
  unfold block_manual64, block_manual, assign. cbv zeta. replace (x * x + y * y) with (x ^ 2 + y ^ 2) in S2 by ring. set (s := x ^ 2 + y ^ 2) in *. set (s64 := fl (square64 xx + square64 yy)) in *. replace (B ^ 2) with (B * B) in * by ring.
  assert (eBB : 0 <= e * (B * B)) by nra. assert (eB : 0 <= e * B) by nra.
  rewrite (Rltb_same s (pr ^ 2) s64 (square64 pr) (100 * e * (B * B))) by (first [exact C1|lra]).
  rewrite (Rltb_same (sr ^ 2) s (square64 sr) s64 (100 * e * (B * B))) by (first [rewrite Rabs_minus_sym; exact C2|lra]).
  assert (U : forall z zz, z = x \/ z = y -> near e 10 B zz z -> forall d d64, d = sr + L \/ d = a -> Rabs (d64 - d) <= 2 * e * B -> Rltb zz d64 = Rltb z d /\ Rltb (- d64) zz = Rltb (- d) z).
  { intros z zz Hz [G _] d d64 Hd Dd. pose proof (C3 z d Hz Hd) as C. assert (M1 : 100 * e * B < Rabs (z - d) /\ 100 * e * B < Rabs (- d - z)).
    { assert (Qd : 0 <= d) by (destruct Hd as [->| ->]; lra). clear -C Qd. split; eapply Rlt_le_trans; try exact C.
      - eapply Rle_trans; [|apply (Rabs_triang_inv2 z d)]. rewrite (Rabs_pos_eq d Qd). lra.
      - rewrite <- (Rabs_Ropp (- d - z)). replace (- (- d - z)) with (z - - d) by ring. eapply Rle_trans; [|apply (Rabs_triang_inv2 z (- d))]. rewrite Rabs_Ropp, (Rabs_pos_eq d Qd). lra. }
    split; (eapply Rltb_same; [|first [exact (proj1 M1)|exact (proj2 M1)]]); [|rewrite <- (Rabs_Ropp (- d64 - - d)); replace (- (- d64 - - d)) with (d64 - d) by ring]; lra. }
  assert (A0 : Rabs (a - a) <= 2 * e * B) by (rewrite Rminus_diag_eq, Rabs_R0 by reflexivity; nra).
  destruct (U x xx (or_introl eq_refl) Gx (sr + L) (fl (sr + L)) (or_introl eq_refl) F) as [-> ->]. destruct (U y yy (or_intror eq_refl) Gy (sr + L) (fl (sr + L)) (or_introl eq_refl) F) as [-> ->].
  destruct (U x xx (or_introl eq_refl) Gx a a (or_intror eq_refl) A0) as [-> ->]. destruct (U y yy (or_intror eq_refl) Gy a a (or_intror eq_refl) A0) as [-> ->]. reflexivity.
Qed.
End Grid.
