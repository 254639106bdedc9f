(** A sampled Zernike series determines its coefficients: independence of the
    circle polynomials, and polynomials vanishing on a grid. *)
From Coq Require Import List Psatz.
From Verif Require Import PyBase Sums PyLib MZernike MAperture PZernike SZernike PDisk PEnum PWave PPhase PPhase2 PZern2.
From Coquelicot Require Import Coquelicot.
Import ListNotations.
Open Scope R_scope.

(** ** Independence on the disk *)
Definition bb (n : nat) (l : Z) : nat := ((n - Z.to_nat (Z.abs l)) / 2)%nat.
Definition rad (n : nat) (l : Z) (rho : R) : R := Rbin (Z.to_nat (Z.abs l) + bb n l) (bb n l) rho.
Lemma circle_form n l : admissible (Z.of_nat n) l -> n = (Z.to_nat (Z.abs l) + bb n l + bb n l)%nat /\
  forall rho t, circle n l rho t = rad n l rho * ang l t.
Proof.
  intros H. destruct (zernike_U_int_form (Z.of_nat n) l H) as (g & E & Hn & Hg). rewrite Nat2Z.id in *. split; [exact Hn|].
  intros rho t. rewrite <- (Uval_circle n l rho t H). unfold Uval. cbn [fst snd]. rewrite E, Hg. reflexivity.
Qed.
Lemma series_Rsum n c rho t : zernike_series n c rho t =
  Rsum (S n) (fun i => Rsum (S i) (fun k => c i (2 * Z.of_nat k - Z.of_nat i)%Z * rad i (2 * Z.of_nat k - Z.of_nat i)%Z rho * ang (2 * Z.of_nat k - Z.of_nat i)%Z t)).
Proof.
  unfold zernike_series. rewrite sum_upto_Rsum. apply Rsum_ext. intros i Hi. rewrite sum_upto_Rsum. apply Rsum_ext. intros k Hk. cbv zeta.
  rewrite (proj2 (circle_form i _ (admissible_row i k ltac:(lia)))). ring.
Qed.
Lemma is_RInt_scal_l (f : R -> R) a b k v : is_RInt f a b v -> is_RInt (fun x => k * f x) a b (k * v).
Proof. intros H. exact (@is_RInt_scal R_NormedModule _ _ _ k _ H). Qed.
Lemma is_RInt_zero a b : is_RInt (fun _ : R => 0) a b 0.
Proof. pose proof (@is_RInt_const R_NormedModule a b 0) as E. unfold scal in E; cbn in E. unfold mult in E; cbn in E. rewrite Rmult_0_r in E. exact E. Qed.
Lemma is_RInt_eq (f : R -> R) a b v w : is_RInt f a b v -> is_RInt f a b w -> v = w.
Proof. intros H H2. rewrite <- (is_RInt_unique f a b v H). exact (is_RInt_unique f a b w H2). Qed.

Definition angI (l : Z) : R := if Z.eq_dec l 0 then 2 * PI else PI.
Lemma series_angular n c l0 : (forall rho t, 0 <= rho <= 1 -> zernike_series n c rho t = 0) -> forall rho, 0 <= rho <= 1 ->
  Rsum (S n) (fun i => Rsum (S i) (fun k => let l := (2 * Z.of_nat k - Z.of_nat i)%Z in
     if Z.eq_dec l l0 then angI l * c i l * rad i l rho else 0)) = 0.
Proof.
  intros H rho Hr. apply (is_RInt_eq (fun t => zernike_series n c rho t * ang l0 t) 0 (2 * PI)).
  2:{ apply (is_RInt_ext (fun _ => 0)); [|apply is_RInt_zero]. intros t _. rewrite H by assumption. rewrite Rmult_0_l. reflexivity. }
  apply (is_RInt_ext (fun t => Rsum (S n) (fun i => Rsum (S i) (fun k => let l := (2 * Z.of_nat k - Z.of_nat i)%Z in c i l * rad i l rho * (ang l t * ang l0 t))))).
  - intros t _. rewrite series_Rsum, <- Rsum_scal_r. apply Rsum_ext. intros i Hi. rewrite <- Rsum_scal_r. apply Rsum_ext. intros k Hk. cbv zeta. ring.
  - apply (is_RInt_Rsum (S n) (fun i t => Rsum (S i) (fun k => let l := (2 * Z.of_nat k - Z.of_nat i)%Z in c i l * rad i l rho * (ang l t * ang l0 t)))).
    intros i Hi. apply (is_RInt_Rsum (S i) (fun k t => let l := (2 * Z.of_nat k - Z.of_nat i)%Z in c i l * rad i l rho * (ang l t * ang l0 t))).
    intros k Hk. cbv zeta. set (l := (2 * Z.of_nat k - Z.of_nat i)%Z). pose proof (ang_integral l l0) as A.
    apply is_RInt_scal_l with (k := c i l * rad i l rho) in A. eapply is_RInt_val; [exact A|]. unfold angI.
    destruct (Z.eq_dec l l0); [|ring]. destruct (Z.eq_dec l 0); ring.
Qed.
Lemma rad_product i j l : (Z.to_nat (Z.abs l) + bb i l + bb i l = i)%nat -> (Z.to_nat (Z.abs l) + bb j l + bb j l = j)%nat ->
  is_RInt (fun rho => rad i l rho * rad j l rho * rho) 0 1 (if Nat.eq_dec i j then / (2 * INR (i + 1)) else 0).
Proof.
  intros Hi Hj. pose proof (radial_integral (Z.to_nat (Z.abs l)) (bb i l) (bb j l)) as A. rewrite Hi in A.
  eapply is_RInt_val; [exact A|]. destruct (Nat.eq_dec (bb i l) (bb j l)), (Nat.eq_dec i j); try reflexivity; exfalso; lia.
Qed.
Lemma series_zero n c : (forall rho t, 0 <= rho <= 1 -> zernike_series n c rho t = 0) ->
  forall i0 l0, (i0 <= n)%nat -> admissible (Z.of_nat i0) l0 -> c i0 l0 = 0.
Proof.
  intros H i0 l0 Hi0 Ha. destruct (circle_form i0 l0 Ha) as [B0 _].
  assert (S0 : Rsum (S n) (fun i => Rsum (S i) (fun k => let l := (2 * Z.of_nat k - Z.of_nat i)%Z in
     if Z.eq_dec l l0 then angI l * c i l * (if Nat.eq_dec i i0 then / (2 * INR (i + 1)) else 0) else 0)) = 0).
  { apply (is_RInt_eq (fun rho => Rsum (S n) (fun i => Rsum (S i) (fun k => let l := (2 * Z.of_nat k - Z.of_nat i)%Z in
     if Z.eq_dec l l0 then angI l * c i l * (rad i l rho * rad i0 l rho * rho) else 0))) 0 1).
    - apply (is_RInt_Rsum (S n) (fun i rho => Rsum (S i) (fun k => let l := (2 * Z.of_nat k - Z.of_nat i)%Z in
        if Z.eq_dec l l0 then angI l * c i l * (rad i l rho * rad i0 l rho * rho) else 0))).
      intros i Hi. apply (is_RInt_Rsum (S i) (fun k rho => let l := (2 * Z.of_nat k - Z.of_nat i)%Z in
        if Z.eq_dec l l0 then angI l * c i l * (rad i l rho * rad i0 l rho * rho) else 0)).
      intros k Hk. cbv zeta. set (l := (2 * Z.of_nat k - Z.of_nat i)%Z). destruct (Z.eq_dec l l0) as [El|]; [|apply is_RInt_zero].
      apply is_RInt_scal_l. apply rad_product; [|rewrite El; lia].
      pose proof (circle_form i l (admissible_row i k ltac:(lia))). lia.
    - apply (is_RInt_ext (fun _ => 0)); [|apply is_RInt_zero]. intros rho Hr. rewrite Rmin_left, Rmax_right in Hr by lra. symmetry.
      pose proof (series_angular n c l0 H rho ltac:(lra)) as A. cbv zeta in A.
      transitivity (Rsum (S n) (fun i => Rsum (S i) (fun k => let l := (2 * Z.of_nat k - Z.of_nat i)%Z in
         if Z.eq_dec l l0 then angI l * c i l * rad i l rho else 0)) * (rad i0 l0 rho * rho)); [|cbv zeta; rewrite A; rewrite Rmult_0_l; reflexivity].
      rewrite <- Rsum_scal_r. apply Rsum_ext. intros i Hi. rewrite <- Rsum_scal_r. apply Rsum_ext. intros k Hk. cbv zeta.
      destruct (Z.eq_dec _ l0) as [->|]; ring. }
  destruct Ha as [Hl [q Hq]]. set (k0 := Z.to_nat (Z.of_nat i0 - q)).
  assert (Ek : (2 * Z.of_nat k0 - Z.of_nat i0)%Z = l0) by (unfold k0; lia).
  rewrite (Rsum_single (S n) i0) in S0.
  - rewrite (Rsum_single (S i0) k0) in S0.
    + cbv zeta in S0. rewrite Ek in S0. destruct (Z.eq_dec l0 l0) as [_|]; [|congruence]. destruct (Nat.eq_dec i0 i0) as [_|]; [|congruence].
      apply Rmult_integral in S0. assert (0 < INR (i0 + 1)) by (apply lt_0_INR; lia). destruct S0 as [S0|S0].
      * apply Rmult_integral in S0. destruct S0 as [S0|S0]; [|exact S0]. unfold angI in S0. pose proof PI_RGT_0. destruct (Z.eq_dec l0 0); lra.
      * exfalso. revert S0. apply Rinv_neq_0_compat. lra.
    + unfold k0. lia.
    + intros k Hk Hne. cbv zeta. destruct (Z.eq_dec _ l0); [lia|reflexivity].
  - lia.
  - intros i Hi Hne. apply Rsum_0. intros k Hk. cbv zeta. destruct (Z.eq_dec _ l0); [|reflexivity]. destruct (Nat.eq_dec i i0); [contradiction|ring].
Qed.

(** ** Polynomials in one variable *)
Fixpoint pol (n : nat) (g : R -> R) : Prop :=
  match n with
  | O => exists c, forall x, g x = c
  | S n => exists c h, pol n h /\ forall x, g x = c + x * h x
  end.
Lemma pol_ext n g g' : (forall x, g x = g' x) -> pol n g -> pol n g'.
Proof.
  destruct n; cbn [pol].
  - intros E (c & H). exists c. intros x. rewrite <- E. apply H.
  - intros E (c & h & Hh & H). exists c, h. split; [exact Hh|]. intros x. rewrite <- E. apply H.
Qed.
Lemma pol_const n c : pol n (fun _ => c).
Proof. revert c. induction n as [|n IH]; intros c; cbn; [exists c; reflexivity|]. exists c, (fun _ => 0). split; [apply IH|]. intros x. ring. Qed.
Lemma pol_plus n : forall g h, pol n g -> pol n h -> pol n (fun x => g x + h x).
Proof.
  induction n as [|n IH]; intros g h; cbn [pol].
  - intros (c & Hc) (d & Hd). exists (c + d). intros x. rewrite Hc, Hd. reflexivity.
  - intros (c & g' & Hg & Eg) (d & h' & Hh & Eh). exists (c + d), (fun x => g' x + h' x). split; [apply IH; assumption|]. intros x. rewrite Eg, Eh. ring.
Qed.
Lemma pol_scal n k : forall g, pol n g -> pol n (fun x => k * g x).
Proof.
  induction n as [|n IH]; intros g; cbn [pol].
  - intros (c & Hc). exists (k * c). intros x. rewrite Hc. reflexivity.
  - intros (c & g' & Hg & Eg). exists (k * c), (fun x => k * g' x). split; [apply IH; assumption|]. intros x. rewrite Eg. ring.
Qed.
Lemma pol_up n : forall g, pol n g -> pol (S n) g.
Proof.
  induction n as [|n IH]; intros g.
  - intros (c & Hc). exists c, (fun _ => 0). split; [exists 0; reflexivity|]. intros x. rewrite Hc. ring.
  - intros (c & h & Hh & E). exists c, h. split; [apply IH; exact Hh|exact E].
Qed.
Lemma pol_le n m g : (n <= m)%nat -> pol n g -> pol m g.
Proof. induction 1; [auto|]. intros H'. apply pol_up. auto. Qed.
Lemma pol_x n g : pol n g -> pol (S n) (fun x => x * g x).
Proof. intros H. exists 0, g. split; [exact H|]. intros x. ring. Qed.
Lemma pol_Rsum n N (g : nat -> R -> R) : (forall i, (i < N)%nat -> pol n (g i)) -> pol n (fun x => Rsum N (fun i => g i x)).
Proof.
  induction N as [|N IH]; intros H; cbn [Rsum]; [apply pol_const|]. apply (pol_plus n (fun x => Rsum N (fun i => g i x)) (g N)); [apply IH; intros; apply H; lia|apply H; lia].
Qed.
Lemma pol_quad n k g : pol n g -> pol (S (S n)) (fun x => (x ^ 2 + k) * g x).
Proof.
  intros H. apply (pol_ext _ (fun x => x * (x * g x) + k * g x)); [intros x; ring|]. apply (pol_plus _ (fun x => x * (x * g x)) (fun x => k * g x)).
  - apply (pol_x _ (fun x => x * g x)). apply pol_x. exact H.
  - apply pol_scal. apply (pol_le n); [lia|exact H].
Qed.
Lemma pol_quads j : forall n k g, pol n g -> pol (2 * j + n) (fun x => (x ^ 2 + k) ^ j * g x).
Proof.
  induction j as [|j IH]; intros n k g H.
  - apply (pol_ext _ g); [intros x; cbn; ring|exact H].
  - replace (2 * S j + n)%nat with (S (S (2 * j + n))) by lia. apply (pol_ext _ (fun x => (x ^ 2 + k) * ((x ^ 2 + k) ^ j * g x))); [intros x; cbn [pow]; ring|].
    apply (pol_quad _ k (fun x => (x ^ 2 + k) ^ j * g x)). apply IH. exact H.
Qed.
Lemma pol_factor n : forall g a, pol (S n) g -> exists h, pol n h /\ forall x, g x = g a + (x - a) * h x.
Proof.
  induction n as [|n IH]; intros g a (c & h & Hh & E).
  - destruct Hh as (d & Hd). exists (fun _ => d). split; [exists d; reflexivity|]. intros x. rewrite !E, !Hd. ring.
  - destruct (IH h a Hh) as (h2 & H2 & E2). exists (fun x => h a + x * h2 x). split; [exists (h a), h2; split; [exact H2|reflexivity]|].
    intros x. rewrite !E, (E2 x). ring.
Qed.
Lemma pol_roots n : forall g (a : nat -> R), pol n g -> (forall i j, (i < j <= n)%nat -> a i <> a j) -> (forall i, (i <= n)%nat -> g (a i) = 0) -> forall x, g x = 0.
Proof.
  induction n as [|n IH]; intros g a Hg Hd Hz x.
  - destruct Hg as (c & Hc). rewrite Hc, <- (Hc (a O)). apply Hz. lia.
  - destruct (pol_factor n g (a (S n)) Hg) as (h & Hh & E). rewrite E, (Hz (S n)) by lia.
    rewrite (IH h a Hh); [ring|intros i j Hij; apply Hd; lia|].
    intros i Hi. pose proof (E (a i)) as Ei. rewrite (Hz i), (Hz (S n)) in Ei by lia.
    assert (P : (a i - a (S n)) * h (a i) = 0) by lra. apply Rmult_integral in P. destruct P as [P|P]; [|exact P].
    exfalso. apply (Hd i (S n)); [lia|lra].
Qed.

(** ** Circle polynomials as polynomials in x and y *)
(** Real and imaginary part of (x + i y)^m. *)
Fixpoint CS (m : nat) (x y : R) : R * R :=
  match m with O => (1, 0) | S m => let '(a, b) := CS m x y in (x * a - y * b, x * b + y * a) end.
Lemma CS_polar m rho t : CS m (rho * cos t) (rho * sin t) = (rho ^ m * cos (INR m * t), rho ^ m * sin (INR m * t)).
Proof.
  induction m as [|m IH]; cbn [CS].
  - cbn. rewrite Rmult_0_l, cos_0, sin_0. f_equal; ring.
  - rewrite IH. rewrite S_INR, Rmult_plus_distr_r, Rmult_1_l, cos_plus, sin_plus. cbn [pow]. f_equal; ring.
Qed.
Lemma CS_pol m : (forall y, pol m (fun x => fst (CS m x y)) /\ pol m (fun x => snd (CS m x y))) /\
  (forall x, pol m (fun y => fst (CS m x y)) /\ pol m (fun y => snd (CS m x y))).
Proof.
  induction m as [|m [IHx IHy]]; [split; intros; split; (exists 1; reflexivity) || (exists 0; reflexivity)|]. split.
  - intros y. destruct (IHx y) as [A B]. split.
    + apply (pol_ext _ (fun x => x * fst (CS m x y) + (- y) * snd (CS m x y))); [intros x; cbn [CS]; destruct (CS m x y); cbn; ring|].
      apply (pol_plus _ (fun x => x * fst (CS m x y)) (fun x => (- y) * snd (CS m x y))); [apply pol_x; exact A|apply pol_up, pol_scal; exact B].
    + apply (pol_ext _ (fun x => x * snd (CS m x y) + y * fst (CS m x y))); [intros x; cbn [CS]; destruct (CS m x y); cbn; ring|].
      apply (pol_plus _ (fun x => x * snd (CS m x y)) (fun x => y * fst (CS m x y))); [apply pol_x; exact B|apply pol_up, pol_scal; exact A].
  - intros x. destruct (IHy x) as [A B]. split.
    + apply (pol_ext _ (fun y => x * fst (CS m x y) + (-1) * (y * snd (CS m x y)))); [intros y; cbn [CS]; destruct (CS m x y); cbn; ring|].
      apply (pol_plus _ (fun y => x * fst (CS m x y)) (fun y => (-1) * (y * snd (CS m x y)))); [apply pol_up, pol_scal; exact A|].
      apply (pol_scal _ (-1) (fun y => y * snd (CS m x y))). apply pol_x. exact B.
    + apply (pol_ext _ (fun y => x * snd (CS m x y) + y * fst (CS m x y))); [intros y; cbn [CS]; destruct (CS m x y); cbn; ring|].
      apply (pol_plus _ (fun y => x * snd (CS m x y)) (fun y => y * fst (CS m x y))); [apply pol_up, pol_scal; exact B|apply pol_x; exact A].
Qed.
Definition harm (l : Z) (x y : R) : R := let p := CS (Z.to_nat (Z.abs l)) x y in if Z.ltb l 0 then snd p else fst p.
Lemma harm_polar l rho t : harm l (rho * cos t) (rho * sin t) = rho ^ Z.to_nat (Z.abs l) * ang l t.
Proof.
  unfold harm, ang. rewrite CS_polar. assert (E : INR (Z.to_nat (Z.abs l)) = IZR (Z.abs l)) by (rewrite INR_IZR_INZ; f_equal; lia).
  rewrite E. destruct (Z.ltb l 0); reflexivity.
Qed.
Definition cart (n : nat) (l : Z) (x y : R) : R :=
  Rsum (S (bb n l)) (fun s => (-1) ^ s * bin (bb n l) s * bin (Z.to_nat (Z.abs l) + bb n l + bb n l - s) (bb n l) * ((x ^ 2 + y ^ 2) ^ (bb n l - s) * harm l x y)).
Lemma cart_polar n l rho t : cart n l (rho * cos t) (rho * sin t) = rad n l rho * ang l t.
Proof.
  unfold cart, rad, Rbin. rewrite <- Rsum_scal_r. apply Rsum_ext. intros s Hs. rewrite harm_polar.
  replace ((rho * cos t) ^ 2 + (rho * sin t) ^ 2) with (rho ^ 2).
  2:{ replace ((rho * cos t) ^ 2 + (rho * sin t) ^ 2) with (rho ^ 2 * ((sin t)² + (cos t)²)) by (unfold Rsqr; ring). rewrite sin2_cos2. ring. }
  replace (Z.to_nat (Z.abs l) + bb n l + bb n l - 2 * s)%nat with (2 * (bb n l - s) + Z.to_nat (Z.abs l))%nat by lia.
  rewrite <- pow_mult, pow_add. ring.
Qed.
Lemma cart_pol n l N : (Z.to_nat (Z.abs l) + bb n l + bb n l <= N)%nat -> (forall y, pol N (fun x => cart n l x y)) /\ (forall x, pol N (fun y => cart n l x y)).
Proof.
  intros HN. destruct (CS_pol (Z.to_nat (Z.abs l))) as [A B]. split.
  - intros y. apply (pol_Rsum N (S (bb n l)) (fun s x => (-1) ^ s * bin (bb n l) s * bin (Z.to_nat (Z.abs l) + bb n l + bb n l - s) (bb n l) * ((x ^ 2 + y ^ 2) ^ (bb n l - s) * harm l x y))).
    intros s Hs. apply (pol_scal N _ (fun x => (x ^ 2 + y ^ 2) ^ (bb n l - s) * harm l x y)).
    apply (pol_le (2 * (bb n l - s) + Z.to_nat (Z.abs l))); [lia|]. apply (pol_quads (bb n l - s) _ (y ^ 2) (fun x => harm l x y)).
    unfold harm. destruct (Z.ltb l 0); apply A.
  - intros x. apply (pol_Rsum N (S (bb n l)) (fun s y => (-1) ^ s * bin (bb n l) s * bin (Z.to_nat (Z.abs l) + bb n l + bb n l - s) (bb n l) * ((x ^ 2 + y ^ 2) ^ (bb n l - s) * harm l x y))).
    intros s Hs. apply (pol_scal N _ (fun y => (x ^ 2 + y ^ 2) ^ (bb n l - s) * harm l x y)).
    apply (pol_le (2 * (bb n l - s) + Z.to_nat (Z.abs l))); [lia|].
    apply (pol_ext _ (fun y => (y ^ 2 + x ^ 2) ^ (bb n l - s) * harm l x y)); [intros y; rewrite (Rplus_comm (y ^ 2)); reflexivity|].
    apply (pol_quads (bb n l - s) _ (x ^ 2) (fun y => harm l x y)).
    unfold harm. destruct (Z.ltb l 0); apply B.
Qed.
Definition wcart (n : nat) (c : nat -> Z -> R) (x y : R) : R :=
  Rsum (S n) (fun i => Rsum (S i) (fun k => c i (2 * Z.of_nat k - Z.of_nat i)%Z * cart i (2 * Z.of_nat k - Z.of_nat i)%Z x y)).
Lemma wcart_polar n c rho t : wcart n c (rho * cos t) (rho * sin t) = zernike_series n c rho t.
Proof.
  rewrite series_Rsum. apply Rsum_ext. intros i Hi. apply Rsum_ext. intros k Hk. rewrite cart_polar. ring.
Qed.
Lemma wcart_pol n c : (forall y, pol n (fun x => wcart n c x y)) /\ (forall x, pol n (fun y => wcart n c x y)).
Proof.
  assert (B : forall i k, (i < S n)%nat -> (k < S i)%nat -> let l := (2 * Z.of_nat k - Z.of_nat i)%Z in (Z.to_nat (Z.abs l) + bb i l + bb i l <= n)%nat).
  { intros i k Hi Hk. cbv zeta. pose proof (proj1 (circle_form i _ (admissible_row i k ltac:(lia)))). lia. }
  split.
  - intros y. apply (pol_Rsum n (S n) (fun i x => Rsum (S i) (fun k => c i (2 * Z.of_nat k - Z.of_nat i)%Z * cart i (2 * Z.of_nat k - Z.of_nat i)%Z x y))).
    intros i Hi. apply (pol_Rsum n (S i) (fun k x => c i (2 * Z.of_nat k - Z.of_nat i)%Z * cart i (2 * Z.of_nat k - Z.of_nat i)%Z x y)).
    intros k Hk. apply (pol_scal n _ (fun x => cart i (2 * Z.of_nat k - Z.of_nat i)%Z x y)). apply cart_pol. apply B; assumption.
  - intros x. apply (pol_Rsum n (S n) (fun i y => Rsum (S i) (fun k => c i (2 * Z.of_nat k - Z.of_nat i)%Z * cart i (2 * Z.of_nat k - Z.of_nat i)%Z x y))).
    intros i Hi. apply (pol_Rsum n (S i) (fun k y => c i (2 * Z.of_nat k - Z.of_nat i)%Z * cart i (2 * Z.of_nat k - Z.of_nat i)%Z x y)).
    intros k Hk. apply (pol_scal n _ (fun y => cart i (2 * Z.of_nat k - Z.of_nat i)%Z x y)). apply cart_pol. apply B; assumption.
Qed.
(** A series that vanishes on an (n+1) x (n+1) grid vanishes. *)
Lemma wcart_grid n c (a b : nat -> R) : (forall i j, (i < j <= n)%nat -> a i <> a j) -> (forall i j, (i < j <= n)%nat -> b i <> b j) ->
  (forall i j, (i <= n)%nat -> (j <= n)%nat -> wcart n c (a i) (b j) = 0) -> forall x y, wcart n c x y = 0.
Proof.
  intros Ha Hb Hz x y. destruct (wcart_pol n c) as [Px Py].
  apply (pol_roots n (fun y => wcart n c x y) b (Py x) Hb). intros j Hj.
  apply (pol_roots n (fun x => wcart n c x (b j)) a (Px (b j)) Ha). intros i Hi. apply Hz; assumption.
Qed.

(** ** Maps on the pixel grid of [phase] *)
Definition node (n m i : nat) : nat := ((m - 1 - n) / 2 + i)%nat.
Definition coord (m i : nat) : R := (2 * INR i - INR (m - 1)) / INR (m - 1).
Lemma node_lt n m i : (3 * (n + 1) <= 2 * (m - 1))%nat -> (i <= n)%nat -> (node n m i < m)%nat.
Proof. intros H Hi. unfold node. pose proof (Nat.div_mod (m - 1 - n) 2 ltac:(lia)). pose proof (Nat.mod_upper_bound (m - 1 - n) 2 ltac:(lia)). lia. Qed.
Lemma coord_bound n m i : (3 * (n + 1) <= 2 * (m - 1))%nat -> (i <= n)%nat -> - (2 / 3) <= coord m (node n m i) <= 2 / 3.
Proof.
  intros H Hi. assert (M : 0 < INR (m - 1)) by (apply lt_0_INR; lia).
  assert (B : (m - 1 <= 2 * node n m i + (n + 1))%nat /\ (2 * node n m i <= (m - 1) + (n + 1))%nat).
  { unfold node. pose proof (Nat.div_mod (m - 1 - n) 2 ltac:(lia)). pose proof (Nat.mod_upper_bound (m - 1 - n) 2 ltac:(lia)). lia. }
  destruct B as [B1 B2]. apply le_INR in B1, B2, H. rewrite !plus_INR, !mult_INR in *. rewrite ?plus_INR in *. change (INR 2) with 2 in *. change (INR 1) with 1 in *.
  replace (INR 3) with 3 in H by (cbn; ring). unfold coord. split.
  - apply Rmult_le_reg_r with (INR (m - 1)); [exact M|]. replace ((2 * INR (node n m i) - INR (m - 1)) / INR (m - 1) * INR (m - 1)) with (2 * INR (node n m i) - INR (m - 1)) by (field; lra). lra.
  - apply Rmult_le_reg_r with (INR (m - 1)); [exact M|]. replace ((2 * INR (node n m i) - INR (m - 1)) / INR (m - 1) * INR (m - 1)) with (2 * INR (node n m i) - INR (m - 1)) by (field; lra). lra.
Qed.
Lemma coord_inj m i j : (2 <= m)%nat -> coord m i = coord m j -> i = j.
Proof.
  intros H E. assert (M : 0 < INR (m - 1)) by (apply lt_0_INR; lia). unfold coord in E. apply INR_eq.
  apply Rmult_eq_reg_r in E; [lra|]. apply Rinv_neq_0_compat. lra.
Qed.
Lemma linspace_coord pr m i : (2 <= m)%nat -> (i < m)%nat -> nth i (linspace (- pr) pr m) 0 = pr * coord m i.
Proof.
  intros Hm Hi. assert (M : 0 < INR (m - 1)) by (apply lt_0_INR; lia). rewrite linspace_nth by assumption. unfold coord. field. lra.
Qed.
Lemma series_minus n c c' rho t : zernike_series n (fun i l => c i l - c' i l) rho t = zernike_series n c rho t - zernike_series n c' rho t.
Proof.
  rewrite !series_Rsum, <- Rsum_minus. apply Rsum_ext. intros i Hi. rewrite <- Rsum_minus. apply Rsum_ext. intros k Hk. ring.
Qed.
Lemma coeff_pos_onto n k : (2 * k < (n + 1) * (n + 2))%nat -> exists i l, (i <= n)%nat /\ admissible (Z.of_nat i) l /\ coeff_pos i l = k.
Proof.
  intros H. destruct (triangular_bracket k) as (i & A & B). exists i, (2 * Z.of_nat (k - i * (i + 1) / 2) - Z.of_nat i)%Z.
  assert (E : (2 * (i * (i + 1) / 2) = i * (i + 1))%nat).
  { pose proof (Nat.div_mod (i * (i + 1)) 2 ltac:(lia)) as D. assert (Ev : Nat.even (i * (i + 1)) = true).
    { rewrite Nat.even_mul. replace (i + 1)%nat with (S i) by lia. rewrite Nat.even_succ, <- Nat.negb_even. destruct (Nat.even i); reflexivity. }
    apply Nat.even_spec in Ev. destruct Ev as [q Eq]. rewrite Eq in *. rewrite (Nat.mul_comm 2 q), Nat.div_mul by lia. lia. }
  split; [nia|]. split; [apply admissible_row; lia|]. pose proof (coeff_pos_row i (k - i * (i + 1) / 2)). lia.
Qed.
Lemma phase_determines K K' n pr piston tilt m : (2 * length K = (n + 1) * (n + 2))%nat -> (1 <= n)%nat -> length K' = length K -> 0 < pr ->
  (3 * (n + 1) <= 2 * (m - 1))%nat -> phase K pr piston tilt m = phase K' pr piston tilt m ->
  forall k, (k < length K)%nat -> (k = 0%nat -> piston = true) -> (k = 1%nat \/ k = 2%nat -> tilt = true) -> nth k K 0 = nth k K' 0.
Proof.
  intros HK Hn HL Hpr Hm E k Hk Hp Ht. assert (M2 : (2 <= m)%nat) by lia.
  destruct (phase_ok K pr piston tilt m n HK Hn Hpr) as (phi & E1 & _ & P).
  destruct (phase_ok K' pr piston tilt m n ltac:(rewrite HL; exact HK) Hn Hpr) as (phi' & E2 & _ & P').
  rewrite E1, E2 in E. injection E as <-.
  assert (Z0 : forall x y, wcart n (fun i l => kept piston tilt (coeff_of K) i l - kept piston tilt (coeff_of K') i l) x y = 0).
  { apply (wcart_grid n _ (fun i => coord m (node n m i)) (fun i => coord m (node n m i))).
    - intros i j Hij Ec. apply coord_inj in Ec; [|exact M2]. unfold node in Ec. lia.
    - intros i j Hij Ec. apply coord_inj in Ec; [|exact M2]. unfold node in Ec. lia.
    - intros i j Hi Hj. pose proof (node_lt n m i Hm Hi) as Li. pose proof (node_lt n m j Hm Hj) as Lj.
      destruct (P _ Lj) as [_ Q]. destruct (Q _ Li) as [_ Q2]. destruct (P' _ Lj) as [_ Q']. destruct (Q' _ Li) as [_ Q2'].
      rewrite !linspace_coord in Q2, Q2' by assumption.
      pose proof (coord_bound n m i Hm Hi) as Bi. pose proof (coord_bound n m j Hm Hj) as Bj.
      set (x := coord m (node n m i)) in *. set (y := coord m (node n m j)) in *.
      assert (D : (pr * x) ^ 2 + (pr * y) ^ 2 <= pr ^ 2).
      { assert (x ^ 2 <= 4 / 9) by nra. assert (y ^ 2 <= 4 / 9) by nra. replace ((pr * x) ^ 2 + (pr * y) ^ 2) with (pr ^ 2 * (x ^ 2 + y ^ 2)) by ring. assert (0 < pr ^ 2) by nra. nra. }
      destruct (polar_exists 1 x y ltac:(lra)) as (rho & t & Hr & Ex & Ey). rewrite Rmult_1_l in Ex, Ey. rewrite Ex, Ey, wcart_polar, series_minus.
      pose proof (Q2 D rho t Hr ltac:(rewrite Ex; reflexivity) ltac:(rewrite Ey; reflexivity)) as V.
      pose proof (Q2' D rho t Hr ltac:(rewrite Ex; reflexivity) ltac:(rewrite Ey; reflexivity)) as V'.
      rewrite V in V'. pose proof PI_RGT_0. nra. }
  destruct (coeff_pos_onto n k) as (i & l & Hi & Ha & Ep); [lia|].
  pose proof (series_zero n (fun i l => kept piston tilt (coeff_of K) i l - kept piston tilt (coeff_of K') i l)) as S.
  specialize (S (fun rho t _ => eq_trans (eq_sym (wcart_polar n _ rho t)) (Z0 _ _)) i l Hi Ha).
  cbv beta in S. assert (KK : forall Q, kept piston tilt (coeff_of Q) i l = nth k Q 0).
  { intros Q. unfold kept, coeff_of. rewrite Ep. destruct i as [|[|i]]; [|
      destruct tilt; [reflexivity|]|reflexivity].
    - destruct piston; [reflexivity|]. exfalso. assert (l = 0%Z) by (destruct Ha; lia). subst l. change (coeff_pos 0 0) with 0%nat in Ep. discriminate (Hp (eq_sym Ep)).
    - exfalso. destruct Ha as [Hl [q Hq]]. assert (l = 1 \/ l = -1)%Z as [->| ->] by lia; [change (coeff_pos 1 1) with 2%nat in Ep; discriminate (Ht (or_intror (eq_sym Ep)))|change (coeff_pos 1 (-1)) with 1%nat in Ep; discriminate (Ht (or_introl (eq_sym Ep)))]. }
  rewrite !KK in S. lra.
Qed.
Lemma phase_injective K K' n pr m : (2 * length K = (n + 1) * (n + 2))%nat -> (1 <= n)%nat -> length K' = length K -> 0 < pr ->
  (3 * (n + 1) <= 2 * (m - 1))%nat -> phase K pr true true m = phase K' pr true true m -> K = K'.
Proof.
  intros HK Hn HL Hpr Hm E. apply nth_ext with (d := 0) (d' := 0); [congruence|]. intros k Hk.
  apply (phase_determines K K' n pr true true m); auto.
Qed.
