(** The phase map and the aperture field. *)
From Coq Require Import String List ZArith Lia Lra.
From Verif Require Import PyBase PyLib Num MZernike MMath SMath SZernike MAperture MRad MCore MFs MOut SOut SFit SField PWave PPhase PPhase2 PAper PFs PFit9 PPolar.
From Coquelicot Require Import Complex.
Import ListNotations.
Open Scope R_scope.
Open Scope string_scope.
Open Scope list_scope.

Lemma zeros_nth {A} (l : list A) k : nth k (map (fun _ => 0) l) 0 = 0.
Proof. revert k. induction l as [|x l IH]; intros [|k]; cbn; auto. Qed.
Lemma series_zeros n K rho th : zernike_series n (coeff_of (map (fun _ : R => 0) K)) rho th = 0.
Proof.
  unfold zernike_series. assert (Z : forall m f, (forall i, (i <= m)%nat -> f i = 0) -> sum_upto m f = 0).
  { induction m as [|m IH]; intros f H; cbn [sum_upto]; [apply H; lia|]. rewrite IH by (intros; apply H; lia). rewrite H by lia. ring. }
  apply Z. intros i _. apply Z. intros k _. cbv zeta. unfold coeff_of. rewrite zeros_nth. ring.
Qed.

Lemma pixel_series K pr piston tilt N n xs ys phi i j : (2 * length K = (n + 1) * (n + 2))%nat -> (1 <= n)%nat -> 0 < pr -> phase K pr piston tilt N = Ok (xs, ys, phi) ->
  (i < N)%nat -> (j < N)%nat -> let x := nth i xs 0 in let y := nth j ys 0 in x ^ 2 + y ^ 2 <= pr ^ 2 ->
  nth i (nth j phi []) 0 + 2 * PI * left_out piston tilt K pr x y = 2 * PI * zernike_series n (coeff_of K) (sqrt (x ^ 2 + y ^ 2) / pr) (arctan2 y x).
Proof.
  intros HK Hn Hpr H Hi Hj x y Hin.
  destruct (phase_ok K pr true true N n HK Hn Hpr) as (phi0 & E0 & _ & H0).
  assert (T : nth i (nth j phi0 []) 0 = nth i (nth j phi []) 0 + 2 * PI * left_out piston tilt K pr x y /\ xs = linspace (- pr) pr N /\ ys = linspace (- pr) pr N).
  { destruct (phase_piston_shift K pr true N n HK Hn Hpr) as (a1 & b1 & p1 & p1' & A1 & A1' & D1). rewrite E0 in A1. assert (Q1 : a1 = linspace (- pr) pr N /\ b1 = linspace (- pr) pr N /\ p1 = phi0) by (split; [|split]; congruence). destruct Q1 as (-> & -> & ->).
    assert (X : xs = linspace (- pr) pr N /\ ys = linspace (- pr) pr N).
    { destruct (phase_ok K pr piston tilt N n HK Hn Hpr) as (ph & E & _). rewrite H in E. split; congruence. }
    destruct X as [Xx Xy]. split; [|auto]. unfold left_out. subst x y. rewrite Xx, Xy in *.
    destruct tilt.
    - destruct piston.
      + rewrite E0 in H. assert (phi0 = phi) by congruence. subst phi0. ring.
      + rewrite A1' in H. assert (p1' = phi) by congruence. subst p1'. rewrite (D1 i j Hi Hj Hin). ring.
    - destruct (phase_tilt_plane K pr piston N n HK Hn Hpr) as (a2 & b2 & p2 & p2' & A2 & A2' & D2). rewrite H in A2'. assert (Q2 : a2 = linspace (- pr) pr N /\ b2 = linspace (- pr) pr N /\ p2' = phi) by (split; [|split]; congruence). destruct Q2 as (-> & -> & ->). specialize (D2 i j Hi Hj Hin).
      destruct piston.
      + rewrite E0 in A2. assert (p2 = phi0) by congruence. subst p2. rewrite D2. field. lra.
      + rewrite A1' in A2. assert (p2 = p1') by congruence. subst p2. rewrite (D1 i j Hi Hj Hin), D2. field. lra. }
  destruct T as (T & Xx & Xy). rewrite <- T. destruct (H0 j Hj) as [_ H1]. destruct (H1 i Hi) as [_ H2]. rewrite <- Xx, <- Xy in H2 at 1. subst x y. rewrite Xx, Xy in *.
  set (x := nth i (linspace (- pr) pr N) 0) in *. set (y := nth j (linspace (- pr) pr N) 0) in *.
  rewrite (H2 Hin (sqrt (x ^ 2 + y ^ 2) / pr) (arctan2 y x)).
  - f_equal. apply series_ext. intros [|[|k]] l _ _; reflexivity.
  - apply Rmult_le_pos; [apply sqrt_pos|]. left; apply Rinv_0_lt_compat; assumption.
  - rewrite <- (cart2pol_cos x y) at 1. field; lra.
  - rewrite <- (cart2pol_sin x y) at 1. field; lra.
Qed.
Lemma field_phase illum tel I K d wavel piston tilt N n Ea xs ys phi : (2 * length K = (n + 1) * (n + 2))%nat -> (1 <= n)%nat -> 0 < tel_pr tel -> illum I (tel_pr tel) = Ok Ea ->
  phase K (tel_pr tel) piston tilt N = Ok (xs, ys, phi) ->
  exists E E0, aperture illum tel I K d wavel = Ok E /\ aperture illum tel I (perfect K) d wavel = Ok E0 /\
  forall i j, (i < N)%nat -> (j < N)%nat -> let x := nth i xs 0 in let y := nth j ys 0 in x ^ 2 + y ^ 2 <= tel_pr tel ^ 2 ->
    E x y = Cmult (E0 x y) (cis (nth i (nth j phi []) 0 + 2 * PI * left_out piston tilt K (tel_pr tel) x y)).
Proof.
  intros HK Hn Hpr HI HP. destruct (aperture_ok illum tel I K d wavel n Ea HK HI) as (E & EE & HE).
  destruct (aperture_ok illum tel I (perfect K) d wavel n Ea ltac:(unfold perfect; rewrite map_length; exact HK) HI) as (E0 & EE0 & HE0).
  exists E, E0. split; [exact EE|]. split; [exact EE0|]. intros i j Hi Hj x y Hin. rewrite HE, HE0.
  pose proof (pixel_series K (tel_pr tel) piston tilt N n xs ys phi i j HK Hn Hpr HP Hi Hj Hin) as PS. cbv zeta in PS. fold x y in PS. rewrite PS. unfold perfect. rewrite series_zeros, <- Cmult_assoc, <- cis_plus. f_equal. f_equal. ring.
Qed.
(** The field fixes the phase up to whole turns. *)
Lemma cis_eq a b : cis a = cis b -> exists k : Z, a = b + 2 * PI * IZR k.
Proof.
  intros H. injection H as HC HS. assert (C1 : cos (a - b) = 1). { rewrite cos_minus, HC, HS. pose proof (sin2_cos2 b) as Q. unfold Rsqr in Q. lra. }
  replace (a - b) with (2 * ((a - b) / 2)) in C1 by field. rewrite cos_2a_sin in C1. assert (S0 : sin ((a - b) / 2) = 0) by nra.
  apply sin_eq_0_0 in S0. destruct S0 as [k Hk]. exists k. lra.
Qed.
Lemma cis_cancel z a b : z <> RtoC 0 -> Cmult z (cis a) = Cmult z (cis b) -> exists k : Z, a = b + 2 * PI * IZR k.
Proof.
  intros Hz H. apply cis_eq. assert (G : Cmult (Cinv z) (Cmult z (cis a)) = Cmult (Cinv z) (Cmult z (cis b))) by (rewrite H; reflexivity).
  rewrite !Cmult_assoc, Cinv_l, !Cmult_1_l in G by exact Hz. exact G.
Qed.
Lemma same_field illum tel I K K' d wavel N n n' E E0 xs ys phi xs' ys' phi' i j : (2 * length K = (n + 1) * (n + 2))%nat -> (1 <= n)%nat -> (2 * length K' = (n' + 1) * (n' + 2))%nat -> (1 <= n')%nat ->
  0 < tel_pr tel -> aperture illum tel I K d wavel = Ok E -> aperture illum tel I (perfect K) d wavel = Ok E0 ->
  phase K (tel_pr tel) true true N = Ok (xs, ys, phi) -> phase K' (tel_pr tel) true true N = Ok (xs', ys', phi') ->
  (i < N)%nat -> (j < N)%nat -> let x := nth i xs 0 in let y := nth j ys 0 in x ^ 2 + y ^ 2 <= tel_pr tel ^ 2 -> E0 x y <> RtoC 0 ->
  (exists E', aperture illum tel I K' d wavel = Ok E' /\ E' x y = E x y) <-> exists k : Z, nth i (nth j phi' []) 0 = nth i (nth j phi []) 0 + 2 * PI * IZR k.
Proof.
  intros HK Hn HK' Hn' Hpr HE HE0 HP HP' Hi Hj x y Hin NZ.
  assert (exists Ea, illum I (tel_pr tel) = Ok Ea) as [Ea HI]. { unfold aperture in HE. destruct (wavefront K) as [W|]; [|discriminate]. cbn [bind] in HE. destruct (illum I (tel_pr tel)) as [Ea|]; [eauto|discriminate]. }
  assert (X : xs' = xs /\ ys' = ys).
  { destruct (phase_ok K (tel_pr tel) true true N n HK Hn Hpr) as (q & Q & _). destruct (phase_ok K' (tel_pr tel) true true N n' HK' Hn' Hpr) as (q' & Q' & _). rewrite HP in Q. rewrite HP' in Q'. apply Ok_inj in Q, Q'. split; congruence. }
  destruct X as [-> ->].
  destruct (field_phase illum tel I K d wavel true true N n Ea xs ys phi HK Hn Hpr HI HP) as (F & F0 & A & A0 & V). rewrite HE in A. rewrite HE0 in A0. apply Ok_inj in A, A0. subst F F0.
  destruct (field_phase illum tel I K' d wavel true true N n' Ea xs ys phi' HK' Hn' Hpr HI HP') as (F' & F0 & A' & A0' & V').
  assert (EQ0 : F0 x y = E0 x y).
  { destruct (aperture_ok illum tel I (perfect K) d wavel n Ea ltac:(unfold perfect; rewrite map_length; exact HK) HI) as (G & EG & HG). rewrite HE0 in EG. apply Ok_inj in EG. subst G.
    destruct (aperture_ok illum tel I (perfect K') d wavel n' Ea ltac:(unfold perfect; rewrite map_length; exact HK') HI) as (G & EG & HG'). rewrite A0' in EG. apply Ok_inj in EG. subst G. rewrite HG, HG'. unfold perfect. rewrite !series_zeros. reflexivity. }
  specialize (V i j Hi Hj Hin). specialize (V' i j Hi Hj Hin). cbv zeta in V, V'. fold x y in V, V'. unfold left_out in V, V'. rewrite EQ0 in V'.
  replace (nth i (nth j phi []) 0 + 2 * PI * (0 + 0)) with (nth i (nth j phi []) 0) in V by ring. replace (nth i (nth j phi' []) 0 + 2 * PI * (0 + 0)) with (nth i (nth j phi' []) 0) in V' by ring.
  split.
  - intros (E' & HE' & EQ). rewrite A' in HE'. apply Ok_inj in HE'. subst F'. rewrite V, V' in EQ. exact (cis_cancel _ _ _ NZ EQ).
  - intros [k Hk]. exists F'. split; [exact A'|]. rewrite V, V', Hk. f_equal. unfold cis. rewrite !cos_plus, !sin_plus.
    assert (P : cos (2 * PI * IZR k) = 1 /\ sin (2 * PI * IZR k) = 0).
    { assert (S0 : sin (PI * IZR k) = 0) by (apply sin_eq_0_1; exists k; ring). replace (2 * PI * IZR k) with (2 * (PI * IZR k)) by ring. rewrite cos_2a_sin, sin_2a, S0. split; ring. }
    destruct P as [-> ->]. f_equal; ring.
Qed.

Lemma stored_field orc a s s' c : wf s -> run (fit_zpoly orc a) s = (Ok tt, s') -> free_number a s -> configured a s c -> 0 < tel_pr (fa_tel a) ->
  exists j, (j <= 100)%nat /\ s (numbered (fit_dir a) (fa_name a) j) = None /\
  forall n, (1 <= n <= fa_order_max a)%nat -> exists rows ph,
    fitpar_rows s' (numbered (fit_dir a) (fa_name a) j) n rows /\
    csv_file s' (numbered (fit_dir a) (fa_name a) j) ("phase_n" ^^ dec n ^^ ".csv") ("Phase-error radians " ^^ fa_name a) (A2 (map (map Fin) ph)) /\
    let I := firstn 5 (map parfit rows) in let K := skipn 5 (map parfit rows) in let pr := tel_pr (fa_tel a) in
    forall Ea d wavel, fa_illum a I pr = Ok Ea -> exists E E0,
      aperture (fa_illum a) (fa_tel a) I K d wavel = Ok E /\ aperture (fa_illum a) (fa_tel a) I (perfect K) d wavel = Ok E0 /\
      forall r q, (r < 1000)%nat -> (q < 1000)%nat -> let x := nth q (linspace (- pr) pr 1000) 0 in let y := nth r (linspace (- pr) pr 1000) 0 in
        x ^ 2 + y ^ 2 <= pr ^ 2 -> E x y = Cmult (E0 x y) (cis (nth q (nth r ph []) 0 + 2 * PI * (nth 0 K 0 + (nth 1 K 0 * y + nth 2 K 0 * x) / pr))).
Proof.
  intros W Rn Fr Cf Hpr. destruct (stored_together orc a s s' c W Rn Fr Cf) as (j & snrs & Hj & Hn & _ & _ & H). exists j. split; [exact Hj|]. split; [exact Hn|].
  intros n Hn1. destruct (H n Hn1) as (rows & out & r & xy & ph & cov & cor & idx & H1 & H2 & _ & _ & _ & _ & _ & _ & _ & _ & _ & H3 & H4 & _). exists rows, ph. split; [exact H1|]. split; [exact H4|].
  intros I K pr Ea d wavel HI.
  assert (HK : (2 * length K = (n + 1) * (n + 2))%nat).
  { unfold K. rewrite skipn_length, map_length, H2. replace (5 + coeffs n - 5)%nat with (coeffs n) by lia. unfold coeffs.
    pose proof (Nat.div_mod ((n + 1) * (n + 2)) 2 ltac:(lia)) as D. assert (M : ((n + 1) * (n + 2) mod 2 = 0)%nat). { replace ((n + 1) * (n + 2))%nat with (n * (n + 1) + (n + 1) * 2)%nat by lia. rewrite Nat.mod_add by lia.
      clear. induction n as [|n IH]; [reflexivity|]. replace (S n * (S n + 1))%nat with (n * (n + 1) + (n + 1) * 2)%nat by lia. rewrite Nat.mod_add by lia. exact IH. } lia. }
  destruct (phase_ok K pr false false 1000 n HK ltac:(lia) Hpr) as (ph' & EP & _). fold K pr in H3. rewrite EP in H3. assert (ph' = ph) by congruence. subst ph'.
  destruct (field_phase (fa_illum a) (fa_tel a) I K d wavel false false 1000 n Ea _ _ _ HK ltac:(lia) Hpr HI EP) as (E & E0 & A & A0 & V).
  exists E, E0. split; [exact A|]. split; [exact A0|]. intros r0 q Hr Hq x y Hin. exact (V q r0 Hq Hr Hin).
Qed.
