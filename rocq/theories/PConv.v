(** The model under another sign or axis convention. *)
From Coq Require Import List ZArith Lia Lra Bool.
From Verif Require Import PyBase PyLib Sums Num MMath MAperture MTel MRad MCore SMath SZernike SRad STel SCore SGain SMirror SConv PIllum PTel PAper PFft PRad PRad2 PPhase PFar PGain PGain2 PMirror PResid PWave PGrid SFit PBest.
From Coquelicot Require Import Complex.
Import ListNotations.
Open Scope R_scope.

(** * Coefficient lists *)
Lemma listed_S n c : listed (S n) c = listed n c ++ map (fun k => c (S n) (2 * Z.of_nat k - Z.of_nat (S n))%Z) (seq 0 (S (S n))).
Proof.
  unfold listed. set (row := fun i => map (fun k => c i (2 * Z.of_nat k - Z.of_nat i)%Z) (seq 0 (S i))). change (concat (map row (seq 0 (S (S n)))) = concat (map row (seq 0 (S n))) ++ row (S n)).
  rewrite (seq_S (S n)), map_app, concat_app. cbn [map concat Nat.add]. rewrite app_nil_r. reflexivity.
Qed.
Lemma listed_len n c : (2 * length (listed n c) = (n + 1) * (n + 2))%nat.
Proof.
  induction n as [|n IH]; [reflexivity|]. rewrite listed_S, app_length, map_length, seq_length. lia.
Qed.
Lemma listed_coeffs n c : length (listed n c) = coeffs n.
Proof. unfold coeffs. rewrite <- (listed_len n c), Nat.mul_comm, Nat.div_mul; lia. Qed.
Lemma listed_at n c i l : (i <= n)%nat -> admissible (Z.of_nat i) l -> coeff_of (listed n c) i l = c i l.
Proof.
  intros Hi Ha. assert (exists k, (k <= i)%nat /\ l = (2 * Z.of_nat k - Z.of_nat i)%Z) as (k & Hk & ->).
  { destruct Ha as [A [m B]]. exists (Z.to_nat ((l + Z.of_nat i) / 2)). assert ((l + Z.of_nat i) / 2 = Z.of_nat i - m)%Z as ->; [|lia].
    replace (l + Z.of_nat i)%Z with ((Z.of_nat i - m) * 2)%Z by lia. apply Z.div_mul. lia. }
  unfold coeff_of. pose proof (coeff_pos_row i k) as P. induction n as [|n IH].
  - assert (i = 0 /\ k = 0)%nat as [-> ->] by lia. reflexivity.
  - pose proof (listed_len n c) as L. destruct (Nat.eq_dec i (S n)) as [-> |N].
    + rewrite listed_S, app_nth2 by lia. assert (E : (coeff_pos (S n) (2 * Z.of_nat k - Z.of_nat (S n)) - length (listed n c) = k)%nat) by lia.
      rewrite E. rewrite (nth_indep _ 0 (c (S n) (2 * Z.of_nat 0 - Z.of_nat (S n))%Z)) by (rewrite map_length, seq_length; lia). rewrite (map_nth (fun k => c (S n) (2 * Z.of_nat k - Z.of_nat (S n))%Z)), seq_nth by lia. reflexivity.
    + rewrite listed_S, app_nth1 by nia. apply IH; lia.
Qed.

(** * Fields *)
Lemma field_illum tel Ea n K d w x y : aperture_field tel Ea n K d w x y = Cmult (RtoC (Ea x y)) (aperture_field tel (fun _ _ => 1) n K d w x y).
Proof. unfold aperture_field. rewrite Rmult_1_r, RtoC_mult. ring. Qed.

Definition turned (g : convention) (u v : R) : R * R := match g with Reverse_dz => (u, v) | _ => moved g u v end.
Definition turned_dz (g : convention) (d : R) : R := match g with Reverse_dz => - d | _ => d end.

Lemma far_conj E E' box N wavel u v : (2 <= N)%nat -> (forall x y, E' x y = Cconj (E (- x) (- y))) -> far_field E' box N wavel u v = Cconj (far_field E box N wavel u v).
Proof.
  intros HN H. unfold far_field. rewrite Csum_rev, Csum_conj. apply Csum_ext. intros j Hj. rewrite Csum_rev, Csum_conj. apply Csum_ext. intros i Hi.
  rewrite !sample_neg by assumption. rewrite H, !Ropp_involutive, Cmult_conj, cis_conj. f_equal. f_equal. unfold Rdiv. ring.
Qed.
Lemma Cmod_conj z : Cmod (Cconj z) = Cmod z.
Proof. unfold Cmod, Cconj. cbn [fst snd]. f_equal. ring. Qed.

Section Under.
Variables (g : convention) (tel : telgeo) (Ea Ea' : R -> R -> R) (n : nat) (K K' : list R) (d_z wavel : R).
Hypothesis (Hp : 0 < tel_pr tel) (HS : symmetric g tel) (HE : forall x y, Ea' x y = Ea (fst (moved g x y)) (snd (moved g x y))).
Hypothesis (HK : forall i l, (i <= n)%nat -> admissible (Z.of_nat i) l -> coeff_of K' i l = coeffs_under g (coeff_of K) i l).
Let E := aperture_field tel Ea n K d_z wavel.
Let E' := aperture_field tel Ea' n K' (turned_dz g d_z) wavel.
Lemma far_under box N u v : (2 <= N)%nat -> Cmod (far_field E' box N wavel u v) = Cmod (far_field E box N wavel (fst (turned g u v)) (snd (turned g u v))).
Proof.
  intros HN. unfold E, E'. clear E E'. destruct g; cbn [moved turned turned_dz fst snd coeffs_under] in *.
  - f_equal. apply far_mirror_x; [exact HN|]. intros x y. rewrite field_illum, (field_illum tel Ea), HE. f_equal.
    apply (field_mirror_x tel (fun _ _ => 1) n K K' d_z wavel Hp HK); [intros; apply (HS _ _ 0)|reflexivity|intros; apply HS].
  - f_equal. apply far_mirror_y; [exact HN|]. intros x y. rewrite field_illum, (field_illum tel Ea), HE. f_equal.
    apply (field_mirror_y tel (fun _ _ => 1) n K K' d_z wavel Hp HK); [intros; apply (HS _ _ 0)|reflexivity|intros; apply HS].
  - f_equal. apply far_transposed. intros x y. rewrite field_illum, (field_illum tel Ea), HE. f_equal.
    apply (field_transposed tel (fun _ _ => 1) n K K' d_z wavel Hp HK); [intros; apply (HS _ _ 0)|reflexivity|intros; apply HS].
  - assert (HB : forall x y, block_dist tel (- x) (- y) = block_dist tel x y) by (intros x y; exact (proj1 (HS x y 0))).
    assert (HO : forall x y d, opd_func tel (- x) (- y) (- d) = - opd_func tel x y d) by (intros x y d; exact (proj2 (HS x y d))).
    rewrite (far_conj (aperture_field tel Ea n K d_z wavel)); [apply Cmod_conj|exact HN|]. intros x y. unfold aperture_field. rewrite Cmult_conj, cis_conj, HE, HB.
    replace (Cconj (RtoC (block_dist tel x y * Ea (- x) (- y)))) with (RtoC (block_dist tel x y * Ea (- x) (- y))) by (unfold Cconj, RtoC; cbn; f_equal; ring).
    f_equal. f_equal. rewrite (series_antipode n (coeff_of K) (coeff_of K') _ _ HK). replace ((- x) ^ 2 + (- y) ^ 2) with (x ^ 2 + y ^ 2) by ring.
    rewrite (series_polar n (coeff_of K) (sqrt (x ^ 2 + y ^ 2) / tel_pr tel) (arctan2 (- y) (- x)) (arctan2 y x + PI)).
    + rewrite <- (Ropp_involutive (opd_func tel (- x) (- y) d_z)). rewrite <- (Ropp_involutive d_z) at 2. rewrite HO. unfold Rdiv. ring.
    + intros Hr. apply antipode_polar. intros E0. apply Hr. rewrite E0. unfold Rdiv. ring.
Qed.
End Under.

(** * Interpolation *)
Lemma Rabs_between x b : Rabs x <= b -> - b <= x <= b.
Proof. unfold Rabs. destruct (Rcase_abs x); lra. Qed.
Lemma interpolates_swap P h N x y v : interpolates P h N x y v -> interpolates (fun a b => P b a) h N y x v.
Proof. intros (i & j & s & t & A & B & C & D & S1 & T1 & X & Y & V). exists j, i, t, s. repeat (split; [assumption|]). rewrite V. ring. Qed.
Lemma interpolates_ext P P' h N x y v : (forall a b, P a b = P' a b) -> interpolates P h N x y v -> interpolates P' h N x y v.
Proof. intros H (i & j & s & t & A & B & C & D & S1 & T1 & X & Y & V). exists i, j, s, t. repeat (split; [assumption|]). rewrite <- !H. exact V. Qed.
Lemma interpolates_neg P h N x y v : 0 < h -> Rabs x <= INR (N - 1 - N / 2) * h -> interpolates P h N x y v -> interpolates (fun a b => P (- a) b) h N (- x) y v.
Proof.
  intros Hh Hx (i & j & s & t & A & B & C & D & S1 & T1 & X & Y & V).
  assert (N2 : (N - 1 - N / 2 <= N / 2 <= N - 1 - N / 2 + 1)%nat) by (pose proof (Nat.div_mod N 2); pose proof (Nat.mod_upper_bound N 2); lia).
  destruct (Z_le_gt_dec (- i) (Z.of_nat (N - 1 - N / 2))) as [L|L].
  - exists (- i - 1)%Z, j, (1 - s), t. split; [lia|]. split; [lia|]. split; [exact C|]. split; [exact D|]. split; [lra|]. split; [exact T1|].
    rewrite minus_IZR, opp_IZR. split; [rewrite X; ring|]. split; [exact Y|]. rewrite V.
    replace (- ((- IZR i - 1) * h)) with ((IZR i + 1) * h) by ring. replace (- ((- IZR i - 1 + 1) * h)) with (IZR i * h) by ring. ring.
  - assert (s = 1) as ->.
    { rewrite INR_IZR_INZ in Hx. apply Rabs_between in Hx. rewrite X in Hx. destruct Hx as [Hx _]. assert (- IZR (Z.of_nat (N - 1 - N / 2)) <= IZR i + s) by (apply (Rmult_le_reg_r h); lra).
      assert (G : IZR i <= - IZR (Z.of_nat (N - 1 - N / 2)) - 1) by (rewrite <- opp_IZR, <- minus_IZR; apply IZR_le; lia). lra. }
    exists (- i - 2)%Z, j, 1, t. split; [lia|]. split; [lia|]. split; [exact C|]. split; [exact D|]. split; [lra|]. split; [exact T1|].
    rewrite minus_IZR, opp_IZR. split; [rewrite X; ring|]. split; [exact Y|]. rewrite V.
    replace (- ((- IZR i - 2 + 1) * h)) with ((IZR i + 1) * h) by ring. ring.
Qed.

(** Points whose sign may be changed. *)
Definition free_points (g : convention) (h : R) (N : nat) (x y : R) : Prop :=
  match g with Reverse_u => Rabs x <= INR (N - 1 - N / 2) * h | Reverse_v => Rabs y <= INR (N - 1 - N / 2) * h | _ => True end.
Lemma interpolates_under g P P' h N x y v : 0 < h -> free_points g h N x y -> (forall a b, P' a b = P (fst (turned g a b)) (snd (turned g a b))) ->
  interpolates P h N x y v -> interpolates P' h N (fst (turned g x y)) (snd (turned g x y)) v.
Proof.
  intros Hh HF HP H. destruct g; cbn [turned moved fst snd free_points] in *.
  - apply (interpolates_ext (fun a b => P (- a) b)); [intros; symmetry; apply HP|]. apply interpolates_neg; assumption.
  - apply (interpolates_ext (fun a b => P a (- b))); [intros; symmetry; apply HP|]. apply interpolates_swap, (interpolates_neg (fun a b => P b a)); [assumption..|]. apply interpolates_swap. exact H.
  - apply (interpolates_ext (fun a b => P b a)); [intros; symmetry; apply HP|]. apply interpolates_swap. exact H.
  - apply (interpolates_ext P); [intros; symmetry; apply HP|]. exact H.
Qed.
Lemma in_grid_neg h N x : 0 <= h -> (1 <= N)%nat -> Rabs x <= INR (N - 1 - N / 2) * h -> in_grid h N x.
Proof.
  intros Hh HN Hx. assert (N2 : (N - 1 - N / 2 <= N / 2 <= N - 1 - N / 2 + 1)%nat) by (pose proof (Nat.div_mod N 2); pose proof (Nat.mod_upper_bound N 2); lia).
  apply Rabs_between in Hx. unfold in_grid. rewrite minus_INR in Hx by (pose proof (Nat.div_lt N 2); lia). split; [|lra].
  assert (INR (N - 1) <= 2 * INR (N / 2)) by (replace 2 with (INR 2) by reflexivity; rewrite <- mult_INR; apply le_INR; lia). nra.
Qed.

Section Rows.
Variables (g : convention) (illum : list R -> R -> res (R -> R -> R)) (tel : telgeo) (n : nat) (I I' K K' : list R) (Ea Ea' : R -> R -> R) (wavel : R) (N : nat) (bf : R).
Hypothesis (Hw : 0 < wavel) (Hp : 0 < tel_pr tel) (Hb : 0 < bf) (HK : (2 * length K = (n + 1) * (n + 2))%nat) (HK' : (2 * length K' = (n + 1) * (n + 2))%nat).
Hypothesis (HI : illum I (tel_pr tel) = Ok Ea) (HI' : illum I' (tel_pr tel) = Ok Ea').
Hypothesis (HS : symmetric g tel) (HE : forall x y, Ea' x y = Ea (fst (moved g x y)) (snd (moved g x y))).
Hypothesis (HC : forall i l, (i <= n)%nat -> admissible (Z.of_nat i) l -> coeff_of K' i l = coeffs_under g (coeff_of K) i l).
Let h := grid_step (tel_pr tel) wavel N bf.

Lemma points_under d xs ys : (2 <= N)%nat -> length xs = length ys -> (forall k, (k < length xs)%nat -> free_points g h N (nth k xs 0) (nth k ys 0)) ->
  let xs' := map2 (fun x y => fst (turned g x y)) xs ys in let ys' := map2 (fun x y => snd (turned g x y)) xs ys in
  bind (radiation_pattern illum tel I' K' (turned_dz g d) wavel N bf) (fun '(u, v, F) => interp_points u v (power_pattern F) xs' ys') =
  bind (radiation_pattern illum tel I K d wavel N bf) (fun '(u, v, F) => interp_points u v (power_pattern F) xs ys).
Proof.
  intros HN HL HF xs' ys'.
  destruct (rad_some illum tel I K d wavel N bf n Ea HN HK HI) as (u & v & F & E). destruct (rad_some illum tel I' K' (turned_dz g d) wavel N bf n Ea' HN HK' HI') as (u' & v' & F' & E').
  destruct (same_axes _ _ _ _ _ _ _ _ _ _ _ _ _ _ _ _ _ _ E E') as [Au Av]. subst u' v'.
  destruct (axes_api _ _ _ _ _ _ _ _ _ _ _ Hw Hp Hb E) as (<- & Lu & _ & _ & _ & A). cbv zeta in A. fold (grid_step (tel_pr tel) wavel N bf) in A. fold h in A. destruct A as (Hs & An & _ & _).
  rewrite E, E'. cbn [bind]. unfold interp_points.
  assert (LX : length xs' = length xs) by (apply map2_length; exact HL). assert (LY : length ys' = length xs) by (apply map2_length; exact HL). rewrite LX, LY, HL, !Nat.eqb_refl.
  assert (PT : forall k, (k < length xs)%nat -> nth k xs' 0 = fst (turned g (nth k xs 0) (nth k ys 0)) /\ nth k ys' 0 = snd (turned g (nth k xs 0) (nth k ys 0))).
  { intros k Hk. unfold xs', ys'. split; rewrite (map2_nth _ _ _ _ 0 0) by lia; reflexivity. }
  assert (BB : forall k, (k < length xs)%nat -> in_bounds u (nth k xs' 0) && in_bounds u (nth k ys' 0) = in_bounds u (nth k xs 0) && in_bounds u (nth k ys 0)).
  { intros k Hk. destruct (PT k Hk) as [-> ->]. specialize (HF k Hk). assert (Q : forall x, Rabs x <= INR (N - 1 - N / 2) * h -> in_bounds u x = true).
    { intros x Hx. apply (grid_bounds u h N x HN Lu An), in_grid_neg; [lra|lia|exact Hx]. }
    destruct g; cbn [turned moved fst snd free_points] in *; [| |apply andb_comm|reflexivity];
      [rewrite (Q (- nth k xs 0)), (Q (nth k xs 0))|rewrite (Q (- nth k ys 0)), (Q (nth k ys 0))]; rewrite ?Rabs_Ropp; try exact HF; reflexivity. }
  assert (FB : forallb (in_bounds u) xs' && forallb (in_bounds u) ys' = forallb (in_bounds u) xs && forallb (in_bounds u) ys).
  { assert (G : forall a b, length a = length xs -> length b = length xs -> forallb (in_bounds u) a && forallb (in_bounds u) b = forallb (fun k => in_bounds u (nth k a 0) && in_bounds u (nth k b 0)) (seq 0 (length xs))).
    { intros a b La Lb. apply eq_true_iff_eq. rewrite andb_true_iff, !forallb_forall. split.
      - intros [Ha Hb'] k Hk. apply in_seq in Hk. rewrite Ha, Hb' by (apply nth_In; lia). reflexivity.
      - intros H. split; intros x Hx; apply (In_nth _ _ 0) in Hx; destruct Hx as (k & Hk & <-); specialize (H k ltac:(apply in_seq; lia)); apply andb_prop in H; tauto. }
    rewrite !G by (assumption || (symmetry; assumption) || reflexivity). apply eq_true_iff_eq. rewrite !forallb_forall. split; intros H k Hk; specialize (H k Hk); (rewrite BB in * || rewrite <- BB in *); try exact H; apply in_seq in Hk; lia. }
  rewrite FB. destruct (forallb (in_bounds u) xs) eqn:Bx; [|reflexivity]. destruct (forallb (in_bounds u) ys) eqn:By; [|reflexivity]. cbn [andb]. f_equal.
  cbn [andb] in FB. apply andb_prop in FB. destruct FB as [Bx' By']. rewrite forallb_forall in Bx, By, Bx', By'.
  apply (nth_ext _ _ 0 0); [rewrite !map2_length by lia; exact LX|]. intros k Hk. rewrite map2_length in Hk by lia. rewrite LX in Hk. rewrite !(map2_nth _ _ _ _ 0 0) by lia.
  apply (interpolates_unique (fun a b => Cmod (far_field (aperture_field tel Ea' n K' (turned_dz g d) wavel) (tel_pr tel * bf) N wavel a b) ^ 2) h N (nth k xs' 0) (nth k ys' 0)); [lra| |].
  - apply (interp_far illum tel I' K' (turned_dz g d) wavel N bf n Ea' Hw Hp Hb HN HK' HI' u u F' _ _ E'); [apply Bx'|apply By']; apply nth_In; lia.
  - destruct (PT k Hk) as [-> ->].
    apply (interpolates_under g (fun a b => Cmod (far_field (aperture_field tel Ea n K d wavel) (tel_pr tel * bf) N wavel a b) ^ 2)); [exact Hs|apply HF, Hk| |].
    + intros a b. rewrite (far_under g tel Ea Ea' n K K' d wavel Hp HS HE HC _ _ _ _ HN). reflexivity.
    + apply (interp_far illum tel I K d wavel N bf n Ea Hw Hp Hb HN HK HI u u F _ _ E); [apply Bx|apply By]; apply nth_In; lia.
Qed.

Hypothesis (LI : length I = 5%nat) (LI' : length I' = 5%nat).
Lemma row_under u v d i : (forall x, In x (reversed g u v) -> Rabs x <= INR (N - 1 - N / 2) * h) ->
  model_row illum tel (I' ++ K') (u_under g u v) (v_under g u v) (dz_under g d) wavel N bf i = model_row illum tel (I ++ K) u v d wavel N bf i.
Proof.
  intros HR. unfold model_row.
  replace (firstn 5 (I' ++ K')) with I' by (rewrite firstn_app, LI', Nat.sub_diag, <- LI', firstn_all; symmetry; apply app_nil_r).
  replace (firstn 5 (I ++ K)) with I by (rewrite firstn_app, LI, Nat.sub_diag, <- LI, firstn_all; symmetry; apply app_nil_r).
  replace (skipn 5 (I' ++ K')) with K' by (rewrite skipn_app, LI', Nat.sub_diag, <- LI', skipn_all; reflexivity).
  replace (skipn 5 (I ++ K)) with K by (rewrite skipn_app, LI, Nat.sub_diag, <- LI, skipn_all; reflexivity).
  assert (ED : py_get (dz_under g d) i = bind (py_get d i) (fun z => Ok (turned_dz g z))).
  { unfold py_get. destruct g; cbn [dz_under turned_dz]; rewrite ?nth_error_map; destruct (nth_error d i); reflexivity. }
  rewrite ED. clear ED. destruct (py_get d i) as [z|e]; [|reflexivity]. cbn [bind].
  destruct (le_lt_dec 2 N) as [HN|HN]; [|rewrite !rad_small by exact HN; reflexivity].
  destruct (rad_some illum tel I K z wavel N bf n Ea HN HK HI) as (a & b & F & E). destruct (rad_some illum tel I' K' (turned_dz g z) wavel N bf n Ea' HN HK' HI') as (a' & b' & F' & E').
  destruct (nth_error u i) as [xs|] eqn:EU.
  2:{ rewrite E, E'. cbn [bind]. unfold py_get. rewrite EU. cbn [bind]. destruct g; cbn [u_under v_under]; rewrite ?nth_error_map, ?EU; cbn [option_map bind]; try reflexivity. destruct (nth_error v i); reflexivity. }
  destruct (nth_error v i) as [ys|] eqn:EV.
  2:{ rewrite E, E'. cbn [bind]. unfold py_get. rewrite EU, EV. cbn [bind]. destruct g; cbn [u_under v_under]; rewrite ?nth_error_map, ?EU, ?EV; cbn [option_map bind]; reflexivity. }
  set (xs1 := match g with Reverse_u => map Ropp xs | Exchange_uv => ys | _ => xs end). set (ys1 := match g with Reverse_v => map Ropp ys | Exchange_uv => xs | _ => ys end).
  assert (EU' : py_get (u_under g u v) i = Ok xs1) by (unfold py_get, xs1; destruct g; cbn [u_under]; rewrite ?nth_error_map, ?EU, ?EV; reflexivity).
  assert (EV' : py_get (v_under g u v) i = Ok ys1) by (unfold py_get, ys1; destruct g; cbn [v_under]; rewrite ?nth_error_map, ?EU, ?EV; reflexivity).
  destruct (Nat.eq_dec (length xs) (length ys)) as [HL|HL].
  2:{ rewrite E, E'. cbn [bind]. rewrite EU', EV'. unfold py_get. rewrite EU, EV. cbn [bind]. unfold interp_points. rewrite (proj2 (Nat.eqb_neq _ _) HL).
      rewrite (proj2 (Nat.eqb_neq (length xs1) (length ys1))); [reflexivity|]. unfold xs1, ys1. destruct g; rewrite ?map_length; congruence. }
  assert (X1 : xs1 = map2 (fun x y => fst (turned g x y)) xs ys).
  { unfold xs1. clear - HL. revert ys HL. induction xs as [|x xs IH]; intros [|y ys] HL; try discriminate; [destruct g; reflexivity|]. cbn [length] in HL. specialize (IH ys ltac:(lia)). destruct g; cbn [map map2 turned moved fst snd] in *; rewrite <- IH; reflexivity. }
  assert (Y1 : ys1 = map2 (fun x y => snd (turned g x y)) xs ys).
  { unfold ys1. clear - HL. revert ys HL. induction xs as [|x xs IH]; intros [|y ys] HL; try discriminate; [destruct g; reflexivity|]. cbn [length] in HL. specialize (IH ys ltac:(lia)). destruct g; cbn [map map2 turned moved fst snd] in *; rewrite <- IH; reflexivity. }
  assert (HF : forall k, (k < length xs)%nat -> free_points g h N (nth k xs 0) (nth k ys 0)).
  { intros k Hk. destruct g; cbn [free_points reversed] in *; try exact Logic.I; apply HR, in_concat; [exists xs|exists ys]; (split; [eapply nth_error_In; eassumption|apply nth_In; lia]). }
  pose proof (points_under z xs ys HN HL HF) as P. cbv zeta in P. rewrite <- X1, <- Y1, E, E' in P. cbn [bind] in P.
  rewrite E, E'. cbn [bind]. rewrite EU', EV'. unfold py_get. rewrite EU, EV. cbn [bind]. exact P.
Qed.
Lemma true_under beam u v d : (forall x, In x (reversed g u v) -> Rabs x <= INR (N - 1 - N / 2) * h) ->
  residual_true illum tel (I' ++ K') beam (u_under g u v) (v_under g u v) (dz_under g d) wavel N bf = residual_true illum tel (I ++ K) beam u v d wavel N bf.
Proof. intros HR. unfold residual_true. cbn [fill_rows]. rewrite !(row_under u v d) by exact HR. reflexivity. Qed.
End Rows.

(** The same for complete parameter vectors. *)
Lemma residual_under g illum tel n p beam u v d wavel N bf : 0 < wavel -> 0 < tel_pr tel -> 0 < bf -> symmetric g tel -> moves g illum (tel_pr tel) ->
  length p = (5 + coeffs n)%nat -> (forall x, In x (reversed g u v) -> Rabs x <= INR (N - 1 - N / 2) * grid_step (tel_pr tel) wavel N bf) ->
  residual_true illum tel (params_under g n p) beam (u_under g u v) (v_under g u v) (dz_under g d) wavel N bf = residual_true illum tel p beam u v d wavel N bf.
Proof.
  intros Hw Hp Hb HS HM HL HR. destruct p as [|i_amp [|c_dB [|q [|x0 [|y0 K]]]]]; try discriminate. cbn [length] in HL. cbn [params_under].
  destruct (HM i_amp c_dB q x0 y0) as (Ea & Ea' & HI & HI' & HE).
  change (i_amp :: c_dB :: q :: fst (moved g x0 y0) :: snd (moved g x0 y0) :: listed n (coeffs_under g (coeff_of K))) with ([i_amp; c_dB; q; fst (moved g x0 y0); snd (moved g x0 y0)] ++ listed n (coeffs_under g (coeff_of K))).
  change (i_amp :: c_dB :: q :: x0 :: y0 :: K) with ([i_amp; c_dB; q; x0; y0] ++ K).
  apply (true_under g illum tel n _ _ K _ Ea Ea'); try assumption; try reflexivity.
  - injection HL as HL. rewrite HL. apply coeffs_twice.
  - apply listed_len.
  - intros i l Hi Ha. apply listed_at; assumption.
Qed.
