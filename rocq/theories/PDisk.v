(** C04: orthogonality of the circle polynomials on the unit disk. *)
From Coquelicot Require Import Coquelicot.
From Verif Require Import PyBase Sums PyLib MZernike PZernike SZernike PFinDiff.
Open Scope R_scope.

Lemma is_RInt_Rsum n (f : nat -> R -> R) (v : nat -> R) a b :
  (forall i, (i < n)%nat -> is_RInt (f i) a b (v i)) ->
  is_RInt (fun x => Rsum n (fun i => f i x)) a b (Rsum n v).
Proof.
  induction n as [|n IH]; intros H; cbn [Rsum].
  - pose proof (@is_RInt_const R_NormedModule a b 0) as E. unfold scal in E; cbn in E. unfold mult in E; cbn in E.
    rewrite Rmult_0_r in E. exact E.
  - apply (@is_RInt_plus R_NormedModule).
    + apply IH; intros; apply H; lia.
    + apply H; lia.
Qed.

Lemma is_RInt_val (f : R -> R) (a b v w : R) : is_RInt f a b v -> v = w -> is_RInt f a b w.
Proof. intros H <-; exact H. Qed.

Lemma is_RInt_mono (c : R) k : is_RInt (fun x => c * x ^ k) 0 1 (c / INR (S k)).
Proof.
  assert (Hk : INR (S k) <> 0) by (apply not_0_INR; lia).
  replace (c / INR (S k)) with (minus (c / INR (S k) * 1 ^ S k) (c / INR (S k) * 0 ^ S k)).
  - apply (is_RInt_derive (fun x => c / INR (S k) * x ^ S k)).
    + intros x _. auto_derive; [trivial|]. change (Init.Nat.pred (S k)) with k.
      change (match k with O => 1 | S _ => INR k + 1 end) with (INR (S k)). field. assumption.
    + intros x _. apply (ex_derive_continuous (fun x => c * x ^ k)). auto_derive. trivial.
  - unfold minus, plus, opp; cbn [AbelianGroup.plus AbelianGroup.opp NormedModule.AbelianGroup]. 
    cbn. rewrite pow1. cbn. field. exact Hk.
Qed.

Lemma radial_product m b b' rho :
  Rbin (m + b) b rho * Rbin (m + b') b' rho * rho =
  Rsum (S b') (fun s' => Rsum (S b) (fun s =>
    ((-1) ^ s' * bin b' s' * bin (m + b' + b' - s') b' * ((-1) ^ s * bin b s * bin (m + b + b - s) b))
     * rho ^ (2 * (m + b - s + (b' - s')) + 1))).
Proof.
  unfold Rbin. rewrite Rmult_assoc, Rmult_comm. rewrite <- !Rsum_scal_r. apply Rsum_ext. intros s' Hs'.
  rewrite (Rmult_comm (_ * _) (Rsum _ _)). rewrite <- Rsum_scal_r. apply Rsum_ext. intros s Hs.
  replace (2 * (m + b - s + (b' - s')) + 1)%nat with ((m + b + b - 2 * s) + (m + b' + b' - 2 * s') + 1)%nat by lia.
  rewrite !pow_add. cbn [pow]. ring.
Qed.

Lemma radial_integral_le m b b' : (b' <= b)%nat ->
  is_RInt (fun rho => Rbin (m + b) b rho * Rbin (m + b') b' rho * rho) 0 1
    (if Nat.eq_dec b b' then / (2 * INR (m + b + b + 1)) else 0).
Proof.
  intros Hb.
  apply (is_RInt_ext (fun rho => Rsum (S b') (fun s' => Rsum (S b) (fun s =>
    ((-1) ^ s' * bin b' s' * bin (m + b' + b' - s') b' * ((-1) ^ s * bin b s * bin (m + b + b - s) b))
     * rho ^ (2 * (m + b - s + (b' - s')) + 1))))).
  { intros x _. symmetry. apply radial_product. }
  apply is_RInt_val with
    (v := Rsum (S b') (fun s' => ((-1) ^ s' * bin b' s' * bin (m + b' + b' - s') b') * moment m b (b' - s'))).
  - apply is_RInt_Rsum. intros s' Hs'. unfold moment. rewrite <- Rsum_scal. apply is_RInt_Rsum. intros s Hs.
    eapply is_RInt_val.
    + apply is_RInt_mono.
    + replace (S (2 * (m + b - s + (b' - s')) + 1)) with (2 * (m + b - s + (b' - s') + 1))%nat by lia.
      rewrite (mult_INR 2). replace (INR 2) with 2 by (cbn; ring). unfold Rdiv. ring.
  - destruct (Nat.eq_dec b b') as [<-|Hne].
    + rewrite (Rsum_single _ O); [|lia|].
      * rewrite !Nat.sub_0_r, bin_0. cbn [pow]. rewrite Rmult_assoc, moment_diag. ring.
      * intros i Hi Hi0. rewrite moment_zero by lia. ring.
    + apply Rsum_0. intros i Hi. rewrite moment_zero by lia. ring.
Qed.

Lemma radial_integral m b b' :
  is_RInt (fun rho => Rbin (m + b) b rho * Rbin (m + b') b' rho * rho) 0 1
    (if Nat.eq_dec b b' then / (2 * INR (m + b + b + 1)) else 0).
Proof.
  destruct (le_lt_dec b' b) as [H|H].
  - apply radial_integral_le; assumption.
  - pose proof (radial_integral_le m b' b ltac:(lia)) as E.
    destruct (Nat.eq_dec b b') as [->|_]; [lia|]. destruct (Nat.eq_dec b' b) as [->|_]; [lia|].
    eapply is_RInt_ext; [|exact E]. intros x _. apply Rmult_eq_compat_r, Rmult_comm.
Qed.

(** Angular integrals. *)
Lemma sin_2kPI (k : Z) : sin (IZR k * (2 * PI)) = 0.
Proof. apply sin_eq_0_1. exists (2 * k)%Z. rewrite mult_IZR. ring. Qed.
Lemma cos_2kPI (k : Z) : cos (IZR k * (2 * PI)) = 1.
Proof.
  replace (IZR k * (2 * PI)) with (2 * (IZR k * PI)) by ring. rewrite cos_2a_sin.
  rewrite (sin_eq_0_1 (IZR k * PI)) by (exists k; reflexivity). ring.
Qed.

Lemma is_RInt_cosk (k : Z) : is_RInt (fun t => cos (IZR k * t)) 0 (2 * PI) (if Z.eq_dec k 0 then 2 * PI else 0).
Proof.
  destruct (Z.eq_dec k 0) as [->|Hk].
  - apply (is_RInt_ext (fun _ => 1)). { intros; rewrite Rmult_0_l, cos_0; reflexivity. }
    pose proof (@is_RInt_const R_NormedModule 0 (2 * PI) 1) as E. unfold scal in E; cbn in E. unfold mult in E; cbn in E.
    replace ((2 * PI - 0) * 1) with (2 * PI) in E by ring. exact E.
  - assert (IZR k <> 0) by (apply not_0_IZR; assumption).
    replace 0 with (minus (sin (IZR k * (2 * PI)) / IZR k) (sin (IZR k * 0) / IZR k)) at 2.
    + apply (is_RInt_derive (fun t => sin (IZR k * t) / IZR k)).
      * intros x _. auto_derive; [trivial|]. field. assumption.
      * intros x _. apply (ex_derive_continuous (fun t => cos (IZR k * t))). auto_derive. trivial.
    + rewrite sin_2kPI, Rmult_0_r, sin_0. unfold minus, plus, opp; cbn. field. assumption.
Qed.

Lemma is_RInt_sink (k : Z) : is_RInt (fun t => sin (IZR k * t)) 0 (2 * PI) 0.
Proof.
  destruct (Z.eq_dec k 0) as [->|Hk].
  - apply (is_RInt_ext (fun _ => 0)). { intros; rewrite Rmult_0_l, sin_0; reflexivity. }
    pose proof (@is_RInt_const R_NormedModule 0 (2 * PI) 0) as E. unfold scal in E; cbn in E. unfold mult in E; cbn in E.
    rewrite Rmult_0_r in E. exact E.
  - assert (IZR k <> 0) by (apply not_0_IZR; assumption).
    replace 0 with (minus (- cos (IZR k * (2 * PI)) / IZR k) (- cos (IZR k * 0) / IZR k)) at 2.
    + apply (is_RInt_derive (fun t => - cos (IZR k * t) / IZR k)).
      * intros x _. auto_derive; [trivial|]. field. assumption.
      * intros x _. apply (ex_derive_continuous (fun t => sin (IZR k * t))). auto_derive. trivial.
    + rewrite cos_2kPI, Rmult_0_r, cos_0. unfold minus, plus, opp; cbn. field. assumption.
Qed.

(** The angular factor of U. *)
Definition ang (l : Z) (t : R) : R :=
  if Z.ltb l 0 then sin (IZR (Z.abs l) * t) else cos (IZR (Z.abs l) * t).

Lemma ang_product l l' t : ang l t * ang l' t =
  if Z.ltb l 0 then
    if Z.ltb l' 0 then (cos (IZR (Z.abs l - Z.abs l') * t) - cos (IZR (Z.abs l + Z.abs l') * t)) / 2
    else (sin (IZR (Z.abs l + Z.abs l') * t) + sin (IZR (Z.abs l - Z.abs l') * t)) / 2
  else
    if Z.ltb l' 0 then (sin (IZR (Z.abs l + Z.abs l') * t) - sin (IZR (Z.abs l - Z.abs l') * t)) / 2
    else (cos (IZR (Z.abs l - Z.abs l') * t) + cos (IZR (Z.abs l + Z.abs l') * t)) / 2.
Proof.
  unfold ang. rewrite plus_IZR, minus_IZR, !Rmult_plus_distr_r, !Rmult_minus_distr_r.
  destruct (Z.ltb l 0); destruct (Z.ltb l' 0);
    rewrite ?cos_plus, ?cos_minus, ?sin_plus, ?sin_minus; field.
Qed.

Lemma ang_integral l l' :
  is_RInt (fun t => ang l t * ang l' t) 0 (2 * PI)
    (if Z.eq_dec l l' then (if Z.eq_dec l 0 then 2 * PI else PI) else 0).
Proof.
  eapply is_RInt_ext. { intros t _. symmetry. apply ang_product. }
  assert (Hp : forall f g v w u, is_RInt f 0 (2 * PI) v -> is_RInt g 0 (2 * PI) w -> (v + w) / 2 = u ->
    is_RInt (fun t => (f t + g t) / 2) 0 (2 * PI) u).
  { intros f g v w u Hf Hg <-. apply (is_RInt_ext (fun t => scal (/ 2) (plus (f t) (g t)))).
    - intros t _. unfold scal, plus; cbn. unfold mult; cbn. field.
    - replace ((v + w) / 2) with (scal (/ 2) (plus v w)) by (unfold scal, plus; cbn; unfold mult; cbn; field).
      apply (@is_RInt_scal R_NormedModule), (@is_RInt_plus R_NormedModule); assumption. }
  assert (Hm : forall f g v w u, is_RInt f 0 (2 * PI) v -> is_RInt g 0 (2 * PI) w -> (v - w) / 2 = u ->
    is_RInt (fun t => (f t - g t) / 2) 0 (2 * PI) u).
  { intros f g v w u Hf Hg <-. apply (is_RInt_ext (fun t => scal (/ 2) (minus (f t) (g t)))).
    - intros t _. unfold scal, minus, plus, opp; cbn. unfold mult; cbn. field.
    - replace ((v - w) / 2) with (scal (/ 2) (minus v w)) by (unfold scal, minus, plus, opp; cbn; unfold mult; cbn; field).
      apply (@is_RInt_scal R_NormedModule), (@is_RInt_minus R_NormedModule); assumption. }
  destruct (Z.ltb_spec l 0); destruct (Z.ltb_spec l' 0).
  - eapply Hm; [apply is_RInt_cosk|apply is_RInt_cosk|].
    destruct (Z.eq_dec (Z.abs l - Z.abs l') 0); destruct (Z.eq_dec (Z.abs l + Z.abs l') 0);
    destruct (Z.eq_dec l l'); destruct (Z.eq_dec l 0); try lia; field.
  - eapply Hp; [apply is_RInt_sink|apply is_RInt_sink|].
    destruct (Z.eq_dec l l'); [lia|]. field.
  - eapply Hm; [apply is_RInt_sink|apply is_RInt_sink|].
    destruct (Z.eq_dec l l'); [lia|]. field.
  - eapply Hp; [apply is_RInt_cosk|apply is_RInt_cosk|].
    destruct (Z.eq_dec (Z.abs l - Z.abs l') 0); destruct (Z.eq_dec (Z.abs l + Z.abs l') 0);
    destruct (Z.eq_dec l l'); destruct (Z.eq_dec l 0); try lia; field.
Qed.

(** Separable functions on the disk. *)
Lemma disk_separable (F : R -> R -> R) (g : R -> R) (a : R -> R) (I J : R) :
  (forall rho t, F rho t = g rho * a t) ->
  is_RInt a 0 (2 * PI) I -> is_RInt (fun rho => g rho * rho) 0 1 J ->
  disk_integral F = I * J.
Proof.
  intros HF Ha Hg. unfold disk_integral.
  apply is_RInt_unique.
  apply (is_RInt_ext (fun rho => scal I (g rho * rho))).
  - intros rho _. symmetry. apply is_RInt_unique.
    apply (is_RInt_ext (fun t => scal (g rho * rho) (a t))).
    + intros t _. rewrite HF. unfold scal; cbn; unfold mult; cbn. ring.
    + replace (scal I (g rho * rho)) with (scal (g rho * rho) I) by (unfold scal; cbn; unfold mult; cbn; ring).
      apply (@is_RInt_scal R_NormedModule). exact Ha.
  - replace (I * J) with (scal I J) by reflexivity. apply (@is_RInt_scal R_NormedModule). exact Hg.
Qed.

(** U with admissible indices in closed form. *)
Lemma zernike_U_int_form (n l : Z) : admissible n l ->
  exists g, zernike_U_int n l = Ok g /\
   let m := Z.to_nat (Z.abs l) in let b := ((Z.to_nat n - m) / 2)%nat in
   Z.to_nat n = (m + b + b)%nat /\
   forall rho t, g rho t = Rbin (m + b) b rho * ang l t.
Proof.
  intros [Hl He].
  set (m := Z.to_nat (Z.abs l)). set (n' := Z.to_nat n).
  assert (Hm : Z.of_nat m = Z.abs l) by (unfold m; lia).
  assert (Hn : Z.of_nat n' = n) by (unfold n'; lia).
  assert (Hmn : (m <= n')%nat) by lia.
  assert (Hev : Nat.even (n' - m) = true).
  { destruct He as [k Hk]. apply Nat.even_spec.
    destruct (Z.abs_spec l) as [[_ Ha]|[_ Ha]].
    - exists (Z.to_nat k). lia.
    - exists (Z.to_nat (k + l)). lia. }
  destruct (zernike_R_bin n' m Hmn Hev) as (g & E & Hg).
  unfold zernike_U_int. rewrite <- Hm, <- Hn, E. cbn [bind].
  destruct (admissible_ab n' m Hmn Hev) as (a & b & Hab & H1 & H2 & H3 & H4).
  eexists. split.
  { instantiate (1 := fun rho t => g rho * ang l t). unfold ang. rewrite <- Hm. destruct (Z.ltb l 0); reflexivity. }
  cbn zeta. rewrite H4. split; [lia|].
  intros rho t. rewrite Hg, H3, H4. replace (m + b)%nat with a by lia. reflexivity.
Qed.

Lemma U_orthogonal n l n' l' : admissible n l -> admissible n' l' ->
  exists g g', zernike_U_int n l = Ok g /\ zernike_U_int n' l' = Ok g' /\
    disk_integral (fun rho t => g rho t * g' rho t) =
      if Z.eq_dec n n' then if Z.eq_dec l l' then (if Z.eq_dec l 0 then 2 else 1) * PI / (2 * (IZR n + 1)) else 0 else 0.
Proof.
  intros H H'. destruct (zernike_U_int_form n l H) as (g & E & Hn & Hg).
  destruct (zernike_U_int_form n' l' H') as (g' & E' & Hn' & Hg').
  exists g, g'. split; [exact E|]. split; [exact E'|].
  set (m := Z.to_nat (Z.abs l)) in *. set (m' := Z.to_nat (Z.abs l')) in *.
  set (b := ((Z.to_nat n - m) / 2)%nat) in *. set (b' := ((Z.to_nat n' - m') / 2)%nat) in *.
  destruct H as [Hl _]. destruct H' as [Hl' _].
  destruct (Z.eq_dec l l') as [->|Hll].
  - assert (m' = m) by (unfold m, m'; reflexivity). rewrite H in *.
    rewrite (disk_separable _ (fun rho => Rbin (m + b) b rho * Rbin (m + b') b' rho) (fun t => ang l' t * ang l' t)
       (if Z.eq_dec l' l' then (if Z.eq_dec l' 0 then 2 * PI else PI) else 0) (if Nat.eq_dec b b' then / (2 * INR (m + b + b + 1)) else 0)).
    + destruct (Z.eq_dec l' l') as [_|Hx]; [|congruence].
      destruct (Nat.eq_dec b b') as [Hb|Hb]; destruct (Z.eq_dec n n') as [Hnn|Hnn].
      * replace (IZR n + 1) with (INR (m + b + b + 1)).
        2:{ rewrite <- plus_IZR, INR_IZR_INZ. f_equal. lia. }
        assert (0 < INR (m + b + b + 1)) by (apply lt_0_INR; lia).
        destruct (Z.eq_dec l' 0); field; lra.
      * exfalso; apply Hnn; lia.
      * exfalso; apply Hb; lia.
      * ring.
    + intros rho t. rewrite Hg, Hg'. ring.
    + apply ang_integral.
    + apply radial_integral.
  - replace (if Z.eq_dec n n' then 0 else 0) with 0 by (destruct (Z.eq_dec n n'); reflexivity).
    pose proof (ang_integral l l') as HA. destruct (Z.eq_dec l l') as [|_]; [contradiction|].
    unfold disk_integral. apply is_RInt_unique.
    apply (is_RInt_ext (fun _ => 0)).
    + intros rho _. symmetry. apply is_RInt_unique.
      apply (is_RInt_ext (fun t => scal (Rbin (m + b) b rho * Rbin (m' + b') b' rho * rho) (ang l t * ang l' t))).
      * intros t _. rewrite Hg, Hg'. unfold scal; cbn; unfold mult; cbn. ring.
      * pose proof (@is_RInt_scal R_NormedModule _ _ _ (Rbin (m + b) b rho * Rbin (m' + b') b' rho * rho) _ HA) as E0.
        unfold scal at 2 in E0; cbn in E0; unfold mult in E0; cbn in E0. rewrite Rmult_0_r in E0. exact E0.
    + pose proof (@is_RInt_const R_NormedModule 0 1 0) as E0. unfold scal in E0; cbn in E0. unfold mult in E0; cbn in E0.
      rewrite Rmult_0_r in E0. exact E0.
Qed.
