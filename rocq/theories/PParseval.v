(** C73: the wavefront under integration over the disk. *)
From Coquelicot Require Import Coquelicot.
From Verif Require Import PyBase Sums PyLib Num MZernike PZernike SZernike PRodrigues PBound PDisk PEnum MMath MAperture PZern2 PWave PPhase PPhase2.
Open Scope R_scope.

Notation is_disk := has_disk_integral.

Lemma is_disk_unique F v : is_disk F v -> disk_integral F = v.
Proof.
  intros (I & HI & H). unfold disk_integral. apply is_RInt_unique. apply (is_RInt_ext I); [|exact H].
  intros rho _. symmetry. apply is_RInt_unique, HI.
Qed.

Lemma is_disk_ext F G v : (forall rho t, F rho t = G rho t) -> is_disk F v -> is_disk G v.
Proof.
  intros H (I & HI & HV). exists I. split; [|exact HV]. intros rho. apply (is_RInt_ext (fun t => F rho t * rho)); [|apply HI].
  intros t _. rewrite H. reflexivity.
Qed.

Lemma is_disk_scal c F v : is_disk F v -> is_disk (fun rho t => c * F rho t) (c * v).
Proof.
  intros (I & HI & HV). exists (fun rho => c * I rho). split.
  - intros rho. apply (is_RInt_ext (fun t => scal c (F rho t * rho))).
    + intros t _. unfold scal; cbn; unfold mult; cbn. ring.
    + apply (@is_RInt_scal R_NormedModule). apply HI.
  - apply (@is_RInt_scal R_NormedModule _ _ _ c _ HV).
Qed.

Lemma is_disk_plus F G v w : is_disk F v -> is_disk G w -> is_disk (fun rho t => F rho t + G rho t) (v + w).
Proof.
  intros (I & HI & HV) (J & HJ & HW). exists (fun rho => I rho + J rho). split.
  - intros rho. apply (is_RInt_ext (fun t => plus (F rho t * rho) (G rho t * rho))).
    + intros t _. unfold plus; cbn. ring.
    + apply (@is_RInt_plus R_NormedModule); [apply HI|apply HJ].
  - apply (@is_RInt_plus R_NormedModule _ _ _ _ _ _ HV HW).
Qed.

Lemma is_disk_sum n (F : nat -> R -> R -> R) v : (forall i, (i <= n)%nat -> is_disk (F i) (v i)) ->
  is_disk (fun rho t => sum_upto n (fun i => F i rho t)) (sum_upto n v).
Proof.
  induction n as [|n IH]; intros H; cbn [sum_upto]; [apply H; lia|].
  apply is_disk_plus; [apply IH; intros; apply H; lia|apply H; lia].
Qed.

Definition znorm (n n' l l' : Z) : R :=
  if Z.eq_dec n n' then if Z.eq_dec l l' then (if Z.eq_dec l 0 then 2 else 1) * PI / (2 * (IZR n + 1)) else 0 else 0.

Lemma is_disk_sep g a I J F : (forall rho t, F rho t = g rho * a t) ->
  is_RInt a 0 (2 * PI) I -> is_RInt (fun rho => g rho * rho) 0 1 J -> is_disk F (I * J).
Proof.
  intros HF Ha Hg. exists (fun rho => I * (g rho * rho)). split.
  - intros rho. apply (is_RInt_ext (fun t => scal (g rho * rho) (a t))).
    + intros t _. rewrite HF. unfold scal; cbn; unfold mult; cbn. ring.
    + replace (I * (g rho * rho)) with (scal (g rho * rho) I) by (unfold scal; cbn; unfold mult; cbn; ring).
      apply (@is_RInt_scal R_NormedModule). exact Ha.
  - apply (@is_RInt_scal R_NormedModule _ _ _ I _ Hg).
Qed.

Lemma is_RInt_radial a b a' b' : ex_RInt (fun rho => Rbin a b rho * Rbin a' b' rho * rho) 0 1.
Proof.
  apply (@ex_RInt_continuous R_CompleteNormedModule). intros z _. apply (@ex_derive_continuous R_AbsRing R_NormedModule). unfold Rbin.
  assert (D : forall n f, (forall i, ex_derive (f i) z) -> ex_derive (fun rho => Rsum n (fun i => f i rho)) z).
  { induction n as [|n IH]; intros f Hf; cbn; [apply ex_derive_const|].
    apply (@ex_derive_plus R_AbsRing R_NormedModule); [apply IH; exact Hf|apply Hf]. }
  apply ex_derive_mult; [apply ex_derive_mult|apply ex_derive_id]; apply D; intros i; auto_derive; exact I.
Qed.

Lemma is_disk_U n l n' l' g g' : admissible n l -> admissible n' l' -> zernike_U_int n l = Ok g -> zernike_U_int n' l' = Ok g' ->
  is_disk (fun rho t => g rho t * g' rho t) (znorm n n' l l').
Proof.
  intros H H' E E'. destruct (zernike_U_int_form n l H) as (g1 & E1 & Hn & Hg). rewrite E in E1. injection E1 as <-.
  destruct (zernike_U_int_form n' l' H') as (g1 & E1 & Hn' & Hg'). rewrite E' in E1. injection E1 as <-.
  set (m := Z.to_nat (Z.abs l)) in *. set (m' := Z.to_nat (Z.abs l')) in *.
  set (b := ((Z.to_nat n - m) / 2)%nat) in *. set (b' := ((Z.to_nat n' - m') / 2)%nat) in *.
  destruct (is_RInt_radial (m + b) b (m' + b') b') as [J HJ].
  assert (HF : forall rho t, g rho t * g' rho t = (Rbin (m + b) b rho * Rbin (m' + b') b' rho) * (ang l t * ang l' t)) by (intros; rewrite Hg, Hg'; ring).
  assert (S := is_disk_sep (fun rho => Rbin (m + b) b rho * Rbin (m' + b') b' rho) (fun t => ang l t * ang l' t) _ J
    (fun rho t => g rho t * g' rho t) HF (ang_integral l l') HJ).
  destruct (U_orthogonal n l n' l' H H') as (h & h' & E1 & E2 & HD). rewrite E in E1. rewrite E' in E2. injection E1 as <-. injection E2 as <-.
  rewrite (is_disk_unique _ _ S) in HD. unfold znorm. rewrite <- HD. exact S.
Qed.

Lemma is_disk_circle i l i' l' : admissible (Z.of_nat i) l -> admissible (Z.of_nat i') l' ->
  is_disk (fun rho t => circle i l rho t * circle i' l' rho t) (znorm (Z.of_nat i) (Z.of_nat i') l l').
Proof.
  intros H H'. destruct (U_int_ok (Z.of_nat i) l ltac:(lia)) as (g & E). destruct (U_int_ok (Z.of_nat i') l' ltac:(lia)) as (g' & E').
  apply (is_disk_ext (fun rho t => g rho t * g' rho t)); [|exact (is_disk_U _ _ _ _ _ _ H H' E E')].
  intros rho t. rewrite <- !Uval_circle by assumption. unfold Uval. cbn [fst snd]. rewrite E, E'. reflexivity.
Qed.

Lemma sum_upto_single n k f : (k <= n)%nat -> (forall i, (i <= n)%nat -> i <> k -> f i = 0) -> sum_upto n f = f k.
Proof. intros Hk H. rewrite sum_upto_Rsum. apply Rsum_single; [lia|]. intros i Hi. apply H. lia. Qed.

Lemma sum_upto_zero n f : (forall i, (i <= n)%nat -> f i = 0) -> sum_upto n f = 0.
Proof. intros H. rewrite sum_upto_Rsum. apply Rsum_0. intros i Hi. apply H. lia. Qed.

Lemma sum_upto_scal_r n f c : sum_upto n f * c = sum_upto n (fun i => f i * c).
Proof. rewrite !sum_upto_Rsum, Rsum_scal_r. reflexivity. Qed.

Definition row_l (i k : nat) : Z := (2 * Z.of_nat k - Z.of_nat i)%Z.
Definition half_norm (i : nat) (l : Z) : R := (if Z.eq_dec l 0 then 2 else 1) / (2 * (INR i + 1)).

Lemma series_project n c i l : (i <= n)%nat -> admissible (Z.of_nat i) l ->
  is_disk (fun rho t => zernike_series n c rho t * circle i l rho t) (PI * (c i l * half_norm i l)).
Proof.
  intros Hi H. unfold zernike_series.
  assert (V : PI * (c i l * half_norm i l) = sum_upto n (fun i' => sum_upto i' (fun k => c i' (row_l i' k) * znorm (Z.of_nat i') (Z.of_nat i) (row_l i' k) l))).
  { symmetry. rewrite (sum_upto_single n i); [|exact Hi|].
    - assert (Hk : exists k, (k <= i)%nat /\ row_l i k = l).
      { destruct H as [Ha [q Hq]]. exists (Z.to_nat (Z.of_nat i - q)). unfold row_l. lia. }
      destruct Hk as (k & Hk & El). rewrite (sum_upto_single i k); [|exact Hk|].
      + rewrite El. unfold znorm, half_norm. destruct (Z.eq_dec (Z.of_nat i) (Z.of_nat i)) as [_|X]; [|congruence].
        destruct (Z.eq_dec l l) as [_|X]; [|congruence]. rewrite <- INR_IZR_INZ. pose proof (pos_INR i). field. lra.
      + intros k' Hk' Hne. unfold znorm. destruct (Z.eq_dec (row_l i k') l) as [X|_]; [exfalso; unfold row_l in *; lia|].
        destruct (Z.eq_dec _ _); ring.
    - intros i' Hi' Hne. apply sum_upto_zero. intros k Hk. unfold znorm. destruct (Z.eq_dec (Z.of_nat i') (Z.of_nat i)) as [X|_]; [lia|ring]. }
  rewrite V.
  apply (is_disk_ext (fun rho t => sum_upto n (fun i' => sum_upto i' (fun k => c i' (row_l i' k) * (circle i' (row_l i' k) rho t * circle i l rho t))))).
  - intros rho t. rewrite sum_upto_scal_r. apply sum_upto_ext. intros i' _. rewrite sum_upto_scal_r. apply sum_upto_ext. intros k _.
    unfold row_l. ring.
  - apply (is_disk_sum n (fun i' rho t => sum_upto i' (fun k => c i' (row_l i' k) * (circle i' (row_l i' k) rho t * circle i l rho t)))).
    intros i' Hi'. apply (is_disk_sum i' (fun k rho t => c i' (row_l i' k) * (circle i' (row_l i' k) rho t * circle i l rho t))).
    intros k Hk. apply is_disk_scal. apply is_disk_circle; [apply admissible_row; exact Hk|exact H].
Qed.

Lemma series_inner n c c' : is_disk (fun rho t => zernike_series n c rho t * zernike_series n c' rho t)
  (PI * sum_upto n (fun i => sum_upto i (fun k => let l := (2 * Z.of_nat k - Z.of_nat i)%Z in c i l * c' i l * half_norm i l))).
Proof.
  assert (V : PI * sum_upto n (fun i => sum_upto i (fun k => let l := (2 * Z.of_nat k - Z.of_nat i)%Z in c i l * c' i l * half_norm i l)) =
    sum_upto n (fun i => sum_upto i (fun k => c' i (row_l i k) * (PI * (c i (row_l i k) * half_norm i (row_l i k)))))).
  { rewrite Rmult_comm, sum_upto_scal_r. apply sum_upto_ext. intros i _. rewrite sum_upto_scal_r. apply sum_upto_ext. intros k _. cbv zeta. unfold row_l. ring. }
  rewrite V.
  apply (is_disk_ext (fun rho t => sum_upto n (fun i => sum_upto i (fun k => c' i (row_l i k) * (zernike_series n c rho t * circle i (row_l i k) rho t))))).
  - intros rho t. set (Z := zernike_series n c rho t). unfold zernike_series. rewrite (Rmult_comm Z), sum_upto_scal_r. apply sum_upto_ext. intros i _.
    rewrite sum_upto_scal_r. apply sum_upto_ext. intros k _. cbv zeta. unfold row_l. ring.
  - apply (is_disk_sum n (fun i rho t => sum_upto i (fun k => c' i (row_l i k) * (zernike_series n c rho t * circle i (row_l i k) rho t)))).
    intros i Hi. apply (is_disk_sum i (fun k rho t => c' i (row_l i k) * (zernike_series n c rho t * circle i (row_l i k) rho t))).
    intros k Hk. apply is_disk_scal. apply series_project; [exact Hi|apply admissible_row; exact Hk].
Qed.

Lemma wavefront_is_series K n W : (2 * length K = (n + 1) * (n + 2))%nat -> wavefront K = Ok W -> forall rho t, W rho t = zernike_series n (coeff_of K) rho t.
Proof. intros H E. destruct (wavefront_series K n H) as (W' & E' & HW). rewrite E in E'. injection E' as <-. exact HW. Qed.

Lemma wavefront_project K n W i l g : (2 * length K = (n + 1) * (n + 2))%nat -> wavefront K = Ok W ->
  (i <= n)%nat -> admissible (Z.of_nat i) l -> zernike_U (PyInt (Z.of_nat i)) (PyInt l) = Ok g ->
  has_disk_integral (fun rho t => W rho t * g rho t) (PI * coeff_of K i l * (if Z.eq_dec l 0 then 2 else 1) / (2 * (INR i + 1))).
Proof.
  intros H E Hi Hl Eg. pose proof (wavefront_is_series K n W H E) as HW.
  destruct (U_circle i l Hl) as (g' & E' & Hg). rewrite Eg in E'. injection E' as <-.
  replace (PI * coeff_of K i l * _ / _) with (PI * (coeff_of K i l * half_norm i l)).
  2:{ unfold half_norm. pose proof (pos_INR i). field. lra. }
  - apply (is_disk_ext (fun rho t => zernike_series n (coeff_of K) rho t * circle i l rho t)).
    + intros rho t. rewrite HW, Hg. reflexivity.
    + apply series_project; assumption.
Qed.

Lemma wavefront_parseval K K' n W W' : (2 * length K = (n + 1) * (n + 2))%nat -> length K' = length K -> wavefront K = Ok W -> wavefront K' = Ok W' ->
  has_disk_integral (fun rho t => W rho t * W' rho t) (PI *
   sum_upto n (fun i => sum_upto i (fun k => let l := (2 * Z.of_nat k - Z.of_nat i)%Z in
     coeff_of K i l * coeff_of K' i l * ((if Z.eq_dec l 0 then 2 else 1) / (2 * (INR i + 1)))))).
Proof.
  intros H HL E E'. pose proof (wavefront_is_series K n W H E) as HW. rewrite <- HL in H. pose proof (wavefront_is_series K' n W' H E') as HW'.
  apply (is_disk_ext (fun rho t => zernike_series n (coeff_of K) rho t * zernike_series n (coeff_of K') rho t)).
  - intros. rewrite HW, HW'. reflexivity.
  - apply series_inner.
Qed.

Lemma wavefront_mean K n W : (2 * length K = (n + 1) * (n + 2))%nat -> wavefront K = Ok W -> has_disk_integral W (PI * nth 0 K 0).
Proof.
  intros H E. pose proof (wavefront_is_series K n W H E) as HW.
  assert (P : is_disk W (PI * (coeff_of K 0 0%Z * half_norm 0 0%Z))).
  { apply (is_disk_ext (fun rho t => zernike_series n (coeff_of K) rho t * circle 0 0 rho t)).
    - intros rho t. rewrite HW. rewrite <- Uval_circle by (split; [lia|exists 0%Z; lia]). rewrite Uval_00. ring.
    - apply series_project; [lia|]. split; [lia|exists 0%Z; lia]. }
  replace (PI * nth 0 K 0) with (PI * (coeff_of K 0 0%Z * half_norm 0 0%Z)); [exact P|].
  unfold half_norm. cbn [INR]. change (coeff_of K 0 0%Z) with (nth 0 K 0). pose proof PI_RGT_0.
  destruct (Z.eq_dec 0 0); [field; lra|congruence].
Qed.

Lemma U_orthogonal_disk n l n' l' : admissible n l -> admissible n' l' ->
  exists g g', zernike_U (PyInt n) (PyInt l) = Ok g /\ zernike_U (PyInt n') (PyInt l') = Ok g' /\
    has_disk_integral (fun rho t => g rho t * g' rho t)
      (if Z.eq_dec n n' then if Z.eq_dec l l' then (if Z.eq_dec l 0 then 2 else 1) * PI / (2 * (IZR n + 1)) else 0 else 0).
Proof.
  intros H H'. rewrite !U_api by (destruct H, H'; lia).
  destruct (U_int_ok n l ltac:(destruct H; lia)) as (g & E). destruct (U_int_ok n' l' ltac:(destruct H'; lia)) as (g' & E').
  exists g, g'. split; [exact E|]. split; [exact E'|]. exact (is_disk_U n l n' l' g g' H H' E E').
Qed.

Lemma U_not_orthonormal_disk : exists n l g, admissible n l /\ zernike_U (PyInt n) (PyInt l) = Ok g /\
  ~ has_disk_integral (fun rho t => g rho t * g rho t) 1.
Proof.
  destruct U_not_orthonormal as (n & l & g & A & E & H). exists n, l, g. split; [exact A|]. split; [exact E|].
  intros D. apply H, is_disk_unique, D.
Qed.
