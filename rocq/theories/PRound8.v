(** Circle polynomials and wavefronts change little between neighbouring points of the dish. *)
From Coq Require Import Reals List Lra Lia ZArith.
From Verif Require Import PyBase PyLib Sums Num MZernike SZernike MAperture MRad SFloat MFloat SRound PZernike PZern2 PEnum PWave PSym POrder64 PRound PRound2.
From Coquelicot Require Import Complex.
Import ListNotations.
Open Scope R_scope.

Definition pol (rho t : R) : C := (rho * cos t, rho * sin t).
Definition apart (rho t rho' t' : R) : R := Cmod (Cminus (pol rho t) (pol rho' t')).
Lemma pol_mod rho t : 0 <= rho -> Cmod (pol rho t) = rho.
Proof. intros H. unfold Cmod, pol. cbn [fst snd]. replace ((rho * cos t) ^ 2 + (rho * sin t) ^ 2) with (rho * rho * ((sin t)² + (cos t)²)) by (unfold Rsqr; ring). rewrite sin2_cos2, Rmult_1_r. apply sqrt_square, H. Qed.
Lemma apart_pos a b c d : 0 <= apart a b c d.
Proof. apply Cmod_ge_0. Qed.
Lemma pol_mult m rho t : pol (rho ^ S m) (INR (S m) * t) = Cmult (pol rho t) (pol (rho ^ m) (INR m * t)).
Proof. unfold pol, Cmult. cbn [fst snd]. rewrite S_INR. replace ((INR m + 1) * t) with (t + INR m * t) by ring. rewrite cos_plus, sin_plus. f_equal; cbn [pow]; ring. Qed.
Lemma unit_pow x k : 0 <= x <= 1 -> 0 <= x ^ k <= 1.
Proof. apply pow_unit. Qed.
Lemma turn_lip m rho t rho' t' : 0 <= rho <= 1 -> 0 <= rho' <= 1 -> Cmod (Cminus (pol (rho ^ m) (INR m * t)) (pol (rho' ^ m) (INR m * t'))) <= INR m * apart rho t rho' t'.
Proof.
  intros H H'. induction m as [|m IH].
  - cbn [INR pow]. rewrite !Rmult_0_l. replace (Cminus (pol 1 0) (pol 1 0)) with (RtoC 0) by (unfold Cminus; ring). rewrite Cmod_0. lra.
  - rewrite !pol_mult. set (z := pol rho t). set (w := pol rho' t'). set (a := pol (rho ^ m) (INR m * t)) in *. set (b := pol (rho' ^ m) (INR m * t')) in *.
    replace (Cminus (Cmult z a) (Cmult w b)) with (Cplus (Cmult (Cminus z w) a) (Cmult w (Cminus a b))) by (unfold Cminus; ring).
    eapply Rle_trans; [apply Cmod_triangle|]. rewrite !Cmod_mult. rewrite S_INR. pose proof (unit_pow rho m H). assert (A : Cmod a <= 1) by (unfold a; rewrite pol_mod; lra). assert (B : Cmod w <= 1) by (unfold w; rewrite pol_mod; lra).
    unfold apart in *. fold z w in IH |- *. pose proof (Cmod_ge_0 (Cminus z w)). pose proof (Cmod_ge_0 (Cminus a b)).
    assert (Cmod (Cminus z w) * Cmod a <= Cmod (Cminus z w) * 1) by (apply Rmult_le_compat_l; lra). assert (Cmod w * Cmod (Cminus a b) <= 1 * Cmod (Cminus a b)) by (apply Rmult_le_compat_r; lra). lra.
Qed.
Lemma parts_le (z w : C) : Rabs (fst z - fst w) <= Cmod (Cminus z w) /\ Rabs (snd z - snd w) <= Cmod (Cminus z w).
Proof. destruct z as [a b], w as [c d]. unfold Cminus, Cplus, Copp. cbn [fst snd]. pose proof (Rmax_Cmod (a + - c, b + - d)) as M. cbn [fst snd] in M. unfold Rminus. split; (eapply Rle_trans; [|exact M]); [apply Rmax_l|apply Rmax_r]. Qed.
Lemma radius_lip rho t rho' t' : 0 <= rho -> 0 <= rho' -> Rabs (rho - rho') <= apart rho t rho' t'.
Proof.
  intros H H'. rewrite <- (pol_mod rho t H) at 1. rewrite <- (pol_mod rho' t' H') at 1. unfold apart. set (z := pol rho t). set (w := pol rho' t').
  assert (A : Cmod z <= Cmod (Cminus z w) + Cmod w). { replace z with (Cplus (Cminus z w) w) at 1 by (unfold Cminus; ring). apply Cmod_triangle. }
  assert (B : Cmod w <= Cmod (Cminus z w) + Cmod z). { replace w with (Cplus (Copp (Cminus z w)) z) at 1 by (unfold Cminus; ring). eapply Rle_trans; [apply Cmod_triangle|]. rewrite Cmod_opp. lra. }
  apply Rabs_le. lra.
Qed.
Lemma pow_lip q x y : 0 <= x <= 1 -> 0 <= y <= 1 -> Rabs (x ^ q - y ^ q) <= INR q * Rabs (x - y).
Proof.
  intros Hx Hy. induction q as [|q IH]; [cbn; rewrite Rminus_diag_eq, Rabs_R0 by reflexivity; lra|]. rewrite S_INR. cbn [pow]. replace (x * x ^ q - y * y ^ q) with ((x - y) * x ^ q + y * (x ^ q - y ^ q)) by ring.
  eapply Rle_trans; [apply Rabs_triang|]. rewrite !Rabs_mult. pose proof (unit_pow x q Hx) as P. rewrite (Rabs_pos_eq (x ^ q)), (Rabs_pos_eq y) by lra. pose proof (Rabs_pos (x - y)). pose proof (Rabs_pos (x ^ q - y ^ q)). nra.
Qed.

(** rho^j cos(m t) and rho^j sin(m t), m <= j. *)
Lemma mono_lip j m (f : R -> R) rho t rho' t' : (m <= j)%nat -> f = cos \/ f = sin -> 0 <= rho <= 1 -> 0 <= rho' <= 1 ->
  Rabs (rho ^ j * f (INR m * t) - rho' ^ j * f (INR m * t')) <= INR j * apart rho t rho' t'.
Proof.
  intros Hm Hf H H'. replace j with ((j - m) + m)%nat by lia. set (q := (j - m)%nat). rewrite plus_INR, !pow_add. pose proof (turn_lip m rho t rho' t' H H') as L. destruct (parts_le (pol (rho ^ m) (INR m * t)) (pol (rho' ^ m) (INR m * t'))) as [Lc Ls].
  unfold pol at 1 2 in Lc. unfold pol at 1 2 in Ls. cbn [fst snd] in Lc, Ls. pose proof (apart_pos rho t rho' t') as D0. set (D := apart rho t rho' t') in *.
  assert (Lf : Rabs (rho ^ m * f (INR m * t) - rho' ^ m * f (INR m * t')) <= INR m * D) by (destruct Hf as [-> | ->]; lra).
  assert (Bf : Rabs (rho ^ m * f (INR m * t)) <= 1). { rewrite Rabs_mult. pose proof (unit_pow rho m H). rewrite (Rabs_pos_eq (rho ^ m)) by lra. assert (Rabs (f (INR m * t)) <= 1) by (destruct Hf as [-> | ->]; apply Rabs_le; [pose proof (COS_bound (INR m * t))|pose proof (SIN_bound (INR m * t))]; lra). pose proof (Rabs_pos (f (INR m * t))). nra. }
  set (a := rho ^ m * f (INR m * t)) in *. set (b := rho' ^ m * f (INR m * t')) in *.
  replace (rho ^ q * rho ^ m * f (INR m * t)) with (rho ^ q * a) by (unfold a; ring). replace (rho' ^ q * rho' ^ m * f (INR m * t')) with (rho' ^ q * b) by (unfold b; ring).
  replace (rho ^ q * a - rho' ^ q * b) with ((rho ^ q - rho' ^ q) * a + rho' ^ q * (a - b)) by ring. eapply Rle_trans; [apply Rabs_triang|]. rewrite !Rabs_mult. pose proof (unit_pow rho' q H'). rewrite (Rabs_pos_eq (rho' ^ q)) by lra.
  pose proof (pow_lip q rho rho' H H') as P. pose proof (radius_lip rho t rho' t' ltac:(lra) ltac:(lra)) as RL. fold D in RL. pose proof (pos_INR q). assert (Rabs (rho ^ q - rho' ^ q) <= INR q * D). { eapply Rle_trans; [exact P|]. apply Rmult_le_compat_l; lra. }
  pose proof (Rabs_pos (rho ^ q - rho' ^ q)). pose proof (Rabs_pos (a - b)). pose proof (Rabs_pos a).
  assert (Rabs (rho ^ q - rho' ^ q) * Rabs a <= INR q * D * 1) by (apply Rmult_le_compat; lra). assert (rho' ^ q * Rabs (a - b) <= 1 * (INR m * D)) by (apply Rmult_le_compat; lra). lra.
Qed.

Lemma Rsum_lip (f g w : nat -> R) n : (forall i, (i < n)%nat -> Rabs (f i - g i) <= w i) -> Rabs (Rsum n f - Rsum n g) <= Rsum n w.
Proof.
  induction n as [|n IH]; intros H; [cbn; rewrite Rminus_diag_eq, Rabs_R0 by reflexivity; lra|]. cbn [Rsum]. replace (Rsum n f + f n - (Rsum n g + g n)) with ((Rsum n f - Rsum n g) + (f n - g n)) by ring.
  eapply Rle_trans; [apply Rabs_triang|]. pose proof (H n ltac:(lia)). pose proof (IH ltac:(intros i Hi; apply H; lia)). lra.
Qed.
Lemma Rsum_mult_r c (f : nat -> R) n : Rsum n (fun i => f i * c) = Rsum n f * c.
Proof. induction n as [|n IH]; cbn [Rsum]; [ring|]. rewrite IH. ring. Qed.

Lemma radial_lip (n m : nat) (f : R -> R) g : (m <= n)%nat -> Nat.even (n - m) = true -> f = cos \/ f = sin -> zernike_R (Z.of_nat n) (Z.of_nat m) = Ok g ->
  forall rho t rho' t', 0 <= rho <= 1 -> 0 <= rho' <= 1 -> Rabs (g rho * f (INR m * t) - g rho' * f (INR m * t')) <= INR n * (5 / 2) ^ n * apart rho t rho' t'.
Proof.
  intros Hm Ev Hf Eg rho t rho' t' H H'. destruct (zernike_R_nat n m Hm) as (g' & Eg' & Vg). rewrite Eg in Eg'. apply Ok_inj in Eg'. subst g'.
  destruct (admissible_ab n m Hm Ev) as (a & b & Hab & En & Em & Ea & Eb). rewrite Ea, Eb in Vg. rewrite !Vg. unfold Rsumform. rewrite <- !Rsum_mult_r. pose proof (apart_pos rho t rho' t') as D0. set (D := apart rho t rho' t') in *.
  eapply Rle_trans; [apply (Rsum_lip _ _ (fun s => (bin (n - s) a * bin a s) * (INR n * D)))|].
  - intros s Hs. assert (Hs' : (s <= b)%nat) by lia. pose proof (coeff_bin a b s Hs' Hab) as CB. rewrite <- En in CB. rewrite <- CB.
    set (x := INR (fact (n - s))). set (y := INR (fact s) * INR (fact (a - s)) * INR (fact (b - s))).
    replace ((-1) ^ s * x * rho ^ (n - 2 * s) / y * f (INR m * t) - (-1) ^ s * x * rho' ^ (n - 2 * s) / y * f (INR m * t'))
      with ((-1) ^ s * (x / y) * (rho ^ (n - 2 * s) * f (INR m * t) - rho' ^ (n - 2 * s) * f (INR m * t'))) by (unfold Rdiv; ring).
    assert (XY : 0 <= x / y). { apply Rmult_le_pos; [apply pos_INR|]. left. apply Rinv_0_lt_compat. unfold y. repeat apply Rmult_lt_0_compat; apply INR_fact_lt_0. }
    rewrite !Rabs_mult, sign_abs, Rmult_1_l, (Rabs_pos_eq (x / y)) by exact XY. apply Rmult_le_compat_l; [exact XY|]. eapply Rle_trans; [apply mono_lip; try assumption; lia|]. apply Rmult_le_compat_r; [exact D0|]. apply le_INR. lia.
  - rewrite Rsum_mult_r. pose proof (dlan_bound a b) as DB. rewrite <- En in DB. unfold dlan in DB. replace (Rsum (S b) (fun s => bin (n - s) a * bin a s)) with (Rsum (S b) (fun s => bin (a + b - s) a * bin a s)) by (rewrite En; reflexivity).
    pose proof (pos_INR n). assert (0 <= INR n * D) by (apply Rmult_le_pos; lra). replace (INR n * (5 / 2) ^ n * D) with ((5 / 2) ^ n * (INR n * D)) by ring. apply Rmult_le_compat_r; [assumption|exact DB].
Qed.
Lemma U_lip n l g : (0 <= n)%Z -> admissible n l -> zernike_U_int n l = Ok g ->
  forall rho t rho' t', 0 <= rho <= 1 -> 0 <= rho' <= 1 -> Rabs (g rho t - g rho' t') <= INR (Z.to_nat n) * (5 / 2) ^ Z.to_nat n * apart rho t rho' t'.
Proof.
  intros Hn Adm Eg. destruct Adm as [Hle Hev]. set (n' := Z.to_nat n). assert (En : n = Z.of_nat n') by (unfold n'; lia). set (m := Z.to_nat (Z.abs l)). assert (Em : Z.abs l = Z.of_nat m) by (unfold m; lia).
  assert (Ev : Nat.even (n' - m) = true). { apply Nat.even_spec. destruct Hev as [k Hk]. destruct (Z.le_ge_cases 0 l) as [L|L]; [exists (Z.to_nat k); lia|]. exists (Z.to_nat (k - Z.of_nat m)). lia. }
  unfold zernike_U_int in Eg. rewrite Em, En in Eg. destruct (zernike_R (Z.of_nat n') (Z.of_nat m)) as [r|er] eqn:Er; [|discriminate]. cbn [bind] in Eg.
  assert (Hm : (m <= n')%nat) by lia. intros rho t rho' t' H H'. destruct (Z.ltb l 0); apply Ok_inj in Eg; subst g; cbv beta; rewrite <- !INR_IZR_INZ.
  - exact (radial_lip n' m sin r Hm Ev (or_intror eq_refl) Er rho t rho' t' H H').
  - exact (radial_lip n' m cos r Hm Ev (or_introl eq_refl) Er rho t rho' t' H H').
Qed.
Lemma W_lip K n W : (2 * length K = (n + 1) * (n + 2))%nat -> wavefront K = Ok W ->
  forall rho t rho' t', 0 <= rho <= 1 -> 0 <= rho' <= 1 -> Rabs (W rho t - W rho' t') <= INR n * (5 / 2) ^ n * apart rho t rho' t' * total_abs K.
Proof.
  intros HL EW rho t rho' t' H H'. destruct (wavefront_flat K n HL) as (W' & EW' & VW). rewrite EW in EW'. apply Ok_inj in EW'. subst W'. rewrite !VW. unfold Wflat. pose proof (nl_list_length_nat n) as NL. pose proof (apart_pos rho t rho' t') as D0. set (D := apart rho t rho' t') in *.
  eapply Rle_trans; [apply (Rsum_lip _ _ (fun i => Rabs (nth i K 0) * (INR n * (5 / 2) ^ n * D)))|rewrite Rsum_mult_r, <- total_abs_sum; lra].
  intros i Hi. rewrite <- Rmult_minus_distr_l, Rabs_mult. apply Rmult_le_compat_l; [apply Rabs_pos|]. destruct (nth i (nl_list (Z.of_nat n)) (0, 0)%Z) as [n' l'] eqn:E.
  assert (Hin : In (n', l') (nl_list (Z.of_nat n))) by (rewrite <- E; apply nth_In; lia). apply nl_list_in in Hin. destruct Hin as (Hle & Adm). pose proof Adm as (A1 & _).
  unfold Uval. cbn [fst snd]. destruct (zernike_U_int n' l') as [g|er] eqn:Eg; [|rewrite Rminus_diag_eq, Rabs_R0 by reflexivity; apply Rmult_le_pos; [apply Rmult_le_pos; [apply pos_INR|apply pow_le; lra]|exact D0]].
  eapply Rle_trans; [apply (U_lip n' l' g ltac:(lia) Adm Eg); assumption|]. apply Rmult_le_compat_r; [exact D0|]. apply Rmult_le_compat; [apply pos_INR|apply pow_le; lra|apply le_INR; lia|apply Rle_pow; [lra|lia]].
Qed.
