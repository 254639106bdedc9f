(** C03: |R(n,m,rho)| <= 1 on the unit disk, by invariance of the Bombieri norm
    of binary forms under rotations. *)
From Verif Require Import PyBase Sums PyLib MZernike PZernike.
Open Scope R_scope.

Section Rotation.
Variables c s : R.
Hypothesis Hcs : c * c + s * s = 1.

(** Coefficient of x^i y^(a+b-i) in (c x + s y)^a (- s x + c y)^b. *)
Fixpoint qb (b : nat) (i : nat) : R :=
  match b with
  | O => match i with O => 1 | S _ => 0 end
  | S b' => (match i with O => 0 | S i' => - s * qb b' i' end) + c * qb b' i
  end.
Fixpoint q (a b : nat) (i : nat) : R :=
  match a with
  | O => qb b i
  | S a' => (match i with O => 0 | S i' => c * q a' b i' end) + s * q a' b i
  end.

Definition sh (f : nat -> R) (i : nat) : R := match i with O => 0 | S j => f j end.

Lemma q_Sa a b i : q (S a) b i = c * sh (q a b) i + s * q a b i.
Proof. cbn [q]. destruct i; cbn [sh]; ring. Qed.

Lemma q_Sb a b i : q a (S b) i = - s * sh (q a b) i + c * q a b i.
Proof.
  revert i; induction a as [|a IH]; intros i.
  - cbn [q qb]. destruct i; cbn [sh]; ring.
  - rewrite q_Sa, IH. destruct i as [|i]; cbn [sh].
    + rewrite q_Sa; cbn [sh]; ring.
    + rewrite IH, !q_Sa. cbn [sh]. ring.
Qed.

Lemma q_zero a b i : (a + b < i)%nat -> q a b i = 0.
Proof.
  revert i; induction a as [|a IHa]; intros i H.
  - revert i H; induction b as [|b IHb]; intros i H.
    + destruct i; [lia|reflexivity].
    + rewrite q_Sb. destruct i as [|i]; [lia|]. cbn [sh]. rewrite !IHb by lia. ring.
  - rewrite q_Sa. destruct i as [|i]; [lia|]. cbn [sh]. rewrite !IHa by lia. ring.
Qed.

(** pred-aware coefficient: a * q(a-1), zero when a = 0. *)
Definition qa' (a b i : nat) : R := match a with O => 0 | S a' => INR a * q a' b i end.
Definition qb' (a b i : nat) : R := match b with O => 0 | S b' => INR b * q a b' i end.

(** Derivative with respect to x. *)
Lemma q_dx a b i : INR (S i) * q a b (S i) = c * qa' a b i - s * qb' a b i.
Proof.
  revert b i; induction a as [|a IHa]; intros b.
  - induction b as [|b IHb]; intros i.
    + cbn [q qb qa' qb']. ring.
    + rewrite q_Sb. cbn [sh]. cbn [qa' qb']. cbn [qa'] in IHb.
      rewrite Rmult_plus_distr_l. replace (INR (S i) * (c * q 0 b (S i))) with (c * (INR (S i) * q 0 b (S i))) by ring.
      rewrite IHb. destruct i as [|i].
      * cbn [q]. destruct b as [|b]; cbn [qb' q]; [cbn [qb]; rewrite ?S_INR; cbn [INR]; ring|].
        cbn [qb]. rewrite !S_INR. cbn [INR]. ring.
      * specialize (IHb i). rewrite (S_INR (S i)).
        replace ((INR (S i) + 1) * (- s * q 0 b (S i))) with (- s * (INR (S i) * q 0 b (S i)) - s * q 0 b (S i)) by ring.
        rewrite IHb. destruct b as [|b]; cbn [qb']; [cbn [INR]; ring|].
        rewrite (q_Sb 0 b (S i)). cbn [sh]. rewrite (S_INR (S b)). ring.
  - intros i. rewrite q_Sa. cbn [sh].
    rewrite Rmult_plus_distr_l. replace (INR (S i) * (s * q a b (S i))) with (s * (INR (S i) * q a b (S i))) by ring.
    rewrite IHa. destruct i as [|i].
    + cbn [qa']. destruct a as [|a]; destruct b as [|b]; cbn [qa' qb']; rewrite ?(q_Sa _ _ O); cbn [sh]; rewrite ?S_INR; cbn [INR]; try ring.
    + rewrite (S_INR (S i)). 
      replace ((INR (S i) + 1) * (c * q a b (S i))) with (c * (INR (S i) * q a b (S i)) + c * q a b (S i)) by ring.
      rewrite IHa. 
      destruct a as [|a]; destruct b as [|b]; cbn [qa' qb']; rewrite ?(q_Sa _ _ (S i)); cbn [sh]; rewrite ?(S_INR (S a)), ?(S_INR O); cbn [INR]; try ring.
Qed.

(** Derivative with respect to y. *)
Lemma q_dy a b i : (i <= a + b)%nat -> (INR (a + b) - INR i) * q a b i = s * qa' a b i + c * qb' a b i.
Proof.
  revert b i; induction a as [|a IHa]; intros b.
  - induction b as [|b IHb]; intros i Hi.
    + replace i with O by lia. cbn. ring.
    + cbn [Nat.add] in *. rewrite q_Sb. destruct i as [|i]; cbn [sh].
      * specialize (IHb O ltac:(lia)). rewrite S_INR.
        replace ((INR b + 1 - INR 0) * (- s * 0 + c * q 0 b 0)) with (c * ((INR b - INR 0) * q 0 b 0) + c * q 0 b 0) by (cbn [INR]; ring).
        rewrite IHb. cbn [qa' qb']. destruct b as [|b]; cbn [qb']; rewrite ?(q_Sb 0 b O); cbn [sh]; rewrite ?S_INR; cbn [INR]; ring.
      * destruct (Nat.eq_dec i b) as [->|Hn].
        -- replace (INR (S b) - INR (S b)) with 0 by ring. cbn [qa' qb']. rewrite (q_zero 0 b (S b)) by lia. ring.
        -- pose proof (IHb i ltac:(lia)) as H1. pose proof (IHb (S i) ltac:(lia)) as H2.
           rewrite (S_INR b). 
           replace ((INR b + 1 - INR (S i)) * (- s * q 0 b i + c * q 0 b (S i))) with
             (- s * ((INR b - INR i) * q 0 b i) + c * ((INR b - INR (S i)) * q 0 b (S i)) + c * q 0 b (S i))
             by (rewrite !S_INR; ring).
           rewrite H1, H2. cbn [qa' qb']. destruct b as [|b]; cbn [qb']; [cbn [INR]; ring|].
           rewrite (q_Sb 0 b (S i)). cbn [sh]. rewrite !(S_INR (S b)). ring.
  - intros i Hi. rewrite q_Sa. cbn [Nat.add] in *. destruct i as [|i]; cbn [sh].
    + specialize (IHa b O ltac:(lia)). rewrite S_INR.
      replace ((INR (a + b) + 1 - INR 0) * (c * 0 + s * q a b 0)) with (s * ((INR (a + b) - INR 0) * q a b 0) + s * q a b 0) by (cbn [INR]; ring).
      rewrite IHa. destruct a as [|a]; destruct b as [|b]; cbn [qa' qb']; rewrite ?(q_Sa _ _ O); cbn [sh]; rewrite ?(S_INR (S a)); cbn [INR]; ring.
    + destruct (Nat.eq_dec i (a + b)) as [->|Hn].
      * replace (INR (S (a + b)) - INR (S (a + b))) with 0 by ring.
        destruct b as [|b]; cbn [qa' qb'].
        -- rewrite (q_zero a 0 (S (a + 0))) by lia. ring.
        -- rewrite (q_zero a (S b) (S (a + S b))), (q_zero (S a) b (S (a + S b))) by lia. ring.
      * pose proof (IHa b i ltac:(lia)) as H1. pose proof (IHa b (S i) ltac:(lia)) as H2.
        rewrite (S_INR (a + b)).
        replace ((INR (a + b) + 1 - INR (S i)) * (c * q a b i + s * q a b (S i))) with
          (c * ((INR (a + b) - INR i) * q a b i) + s * ((INR (a + b) - INR (S i)) * q a b (S i)) + s * q a b (S i))
          by (rewrite !S_INR; ring).
        rewrite H1, H2.
        destruct a as [|a]; destruct b as [|b]; cbn [qa' qb']; rewrite ?(q_Sa _ _ (S i)); cbn [sh]; rewrite ?(S_INR (S a)), ?(S_INR O); cbn [INR]; ring.
Qed.

(** Bombieri weight and norm. *)
Definition wt (N i : nat) : R := INR (fact i) * INR (fact (N - i)) / INR (fact N).
Definition nrm (N : nat) (f : nat -> R) : R := Rsum (S N) (fun i => wt N i * (f i * f i)).

Lemma nrm_step N f g h :
  (forall i, (i <= N)%nat -> INR (S i) * f (S i) = g i) ->
  (forall i, (i <= N)%nat -> (INR (S N) - INR i) * f i = h i) ->
  INR (S N) * INR (S N) * nrm (S N) f = nrm N g + nrm N h.
Proof.
  intros Hg Hh. unfold nrm.
  assert (E : forall i, (i < S (S N))%nat -> INR (S N) * INR (S N) * (wt (S N) i * (f i * f i)) =
     (INR i * INR (S N) * (wt (S N) i * (f i * f i))) + (INR (S N) - INR i) * INR (S N) * (wt (S N) i * (f i * f i)))
    by (intros; ring).
  rewrite <- Rsum_scal. rewrite (Rsum_ext _ _ _ E), Rsum_plus. f_equal.
  - rewrite Rsum_Sl. replace (INR 0) with 0 by reflexivity. rewrite Rmult_0_l, Rmult_0_l, Rplus_0_l.
    apply Rsum_ext. intros i Hi. rewrite <- Hg by lia. unfold wt.
    replace (S N - S i)%nat with (N - i)%nat by lia. rewrite (fact_simpl i), (fact_simpl N), !mult_INR.
    pose proof (INR_fact_neq_0 N). pose proof (not_0_INR (S N) ltac:(lia)). field. split; assumption.
  - cbn [Rsum]. replace (INR (S N) - INR (S N)) with 0 by ring. rewrite (Rmult_0_l (INR (S N))), Rmult_0_l, Rplus_0_r.
    change (Rsum N ?F + ?F N) with (Rsum (S N) F).
    apply (Rsum_ext (S N)). intros i Hi. rewrite <- Hh by lia. unfold wt.
    replace (S N - i)%nat with (S (N - i)) by lia. rewrite (fact_simpl (N - i)), (fact_simpl N), !mult_INR.
    replace (INR (S (N - i))) with (INR (S N) - INR i) by (rewrite <- minus_INR by lia; f_equal; lia).
    pose proof (INR_fact_neq_0 N). pose proof (not_0_INR (S N) ltac:(lia)). field. split; assumption.
Qed.

Lemma nrm_ext N f g : (forall i, (i <= N)%nat -> f i = g i) -> nrm N f = nrm N g.
Proof. intros H. apply Rsum_ext. intros i Hi. rewrite H by lia. reflexivity. Qed.

Lemma nrm_scal N k f : nrm N (fun i => k * f i) = k * k * nrm N f.
Proof. unfold nrm. rewrite <- Rsum_scal. apply Rsum_ext. intros; ring. Qed.

Lemma nrm_rot N f g :
  nrm N (fun i => c * f i - s * g i) + nrm N (fun i => s * f i + c * g i) = nrm N f + nrm N g.
Proof.
  unfold nrm. rewrite <- !Rsum_plus. apply Rsum_ext. intros i Hi.
  transitivity (wt N i * ((c * c + s * s) * (f i * f i + g i * g i))); [ring|]. rewrite Hcs. ring.
Qed.

Lemma wt_eq a b : wt (a + b) a = INR (fact a) * INR (fact b) / INR (fact (a + b)).
Proof. unfold wt. replace (a + b - a)%nat with b by lia. reflexivity. Qed.

Lemma nrm_q_n N : forall a b, (a + b = N)%nat -> nrm N (q a b) = wt N a.
Proof.
  induction N as [|N IH]; intros a b H.
  - replace a with O by lia; replace b with O by lia. unfold nrm, wt. cbn. field.
  - assert (HN : INR (S N) <> 0) by (apply not_0_INR; lia).
    apply Rmult_eq_reg_l with (INR (S N) * INR (S N)).
    2:{ apply Rmult_integral_contrapositive_currified; assumption. }
    rewrite (nrm_step N (q a b) (fun i => c * qa' a b i - s * qb' a b i) (fun i => s * qa' a b i + c * qb' a b i)).
    2:{ intros i Hi. apply q_dx. }
    2:{ intros i Hi. rewrite <- H. apply q_dy. lia. }
    rewrite nrm_rot.
    assert (Ea : nrm N (qa' a b) = INR a * INR (S N) * wt (S N) a).
    { destruct a as [|a].
      - rewrite (nrm_ext _ _ (fun i => 0 * 0)) by (intros; cbn; ring). rewrite nrm_scal. cbn [INR]. ring.
      - rewrite (nrm_ext N (qa' (S a) b) (fun i => INR (S a) * q a b i)) by (intros; reflexivity). rewrite nrm_scal. rewrite (IH a b) by lia. unfold wt.
        replace (S N - S a)%nat with (N - a)%nat by lia. rewrite (fact_simpl a), (fact_simpl N), !mult_INR.
        pose proof (INR_fact_neq_0 N). field. split; assumption. }
    assert (Eb : nrm N (qb' a b) = INR b * INR (S N) * wt (S N) a).
    { destruct b as [|b].
      - rewrite (nrm_ext _ _ (fun i => 0 * 0)) by (intros; cbn; ring). rewrite nrm_scal. cbn [INR]. ring.
      - rewrite (nrm_ext N (qb' a (S b)) (fun i => INR (S b) * q a b i)) by (intros; reflexivity). rewrite nrm_scal. rewrite (IH a b) by lia. unfold wt.
        replace (S N - a)%nat with (S b) by lia. replace (N - a)%nat with b by lia.
        rewrite (fact_simpl b), (fact_simpl N), !mult_INR.
        pose proof (INR_fact_neq_0 N). field. split; assumption. }
    rewrite Ea, Eb. rewrite <- H, plus_INR. ring.
Qed.

Lemma wt_pos N i : 0 < wt N i.
Proof.
  unfold wt. pose proof (INR_fact_lt_0 i). pose proof (INR_fact_lt_0 (N - i)). pose proof (INR_fact_lt_0 N).
  apply Rdiv_lt_0_compat; [nra|assumption].
Qed.

Lemma q_bound a b : Rabs (q a b a) <= 1.
Proof.
  pose proof (nrm_q_n (a + b) a b eq_refl) as H.
  assert (wt (a + b) a * (q a b a * q a b a) <= nrm (a + b) (q a b)).
  { apply (Rsum_ge_term (S (a + b)) a (fun i => wt (a + b) i * (q a b i * q a b i))); [|lia].
    intros i Hi. pose proof (wt_pos (a + b) i). nra. }
  rewrite H in H0. pose proof (wt_pos (a + b) a).
  assert (q a b a * q a b a <= 1) by (apply Rmult_le_reg_l with (wt (a + b) a); lra).
  apply Rsqr_le_abs_0 with (y := 1) in H2 || (rewrite <- Rabs_R1; apply Rsqr_le_abs_0; unfold Rsqr; lra).
Qed.

(** Closed form of the coefficients. *)
Lemma qb_closed b i : qb b i = bin b i * (- s) ^ i * c ^ (b - i).
Proof.
  revert i; induction b as [|b IH]; intros i.
  - destruct i; cbn; ring.
  - cbn [qb]. destruct i as [|i].
    + rewrite IH, !bin_0, !Nat.sub_0_r. cbn; ring.
    + rewrite !IH. cbn [bin]. replace (S b - S i)%nat with (b - i)%nat by lia.
      destruct (le_lt_dec (S i) b) as [H|H].
      * replace (b - i)%nat with (S (b - S i)) by lia. cbn [pow]. ring.
      * rewrite (bin_gt b (S i)) by lia. cbn [pow]. ring.
Qed.

Definition qsum (a b i : nat) : R :=
  Rsum (S i) (fun k => bin a (i - k) * c ^ (i - k) * s ^ (a - (i - k)) * qb b k).

Lemma q_closed a b i : q a b i = qsum a b i.
Proof.
  revert i; induction a as [|a IH]; intros i.
  - unfold qsum. rewrite (Rsum_single _ i); [|lia|].
    + replace (i - i)%nat with O by lia. cbn. ring.
    + intros j Hj Hn. rewrite (bin_gt 0) by lia. ring.
  - rewrite q_Sa. rewrite IH.
    destruct i as [|i].
    + cbn [sh]. unfold qsum. cbn [Rsum]. rewrite !Nat.sub_0_r, !bin_0. cbn [pow]. rewrite ?Nat.sub_0_r. ring.
    + cbn [sh]. rewrite IH. unfold qsum.
      rewrite !(Rsum_Sr (S i)).
      rewrite (Rsum_ext (S i) (fun k => bin (S a) (S i - k) * c ^ (S i - k) * s ^ (S a - (S i - k)) * qb b k)
        (fun k => c * (bin a (i - k) * c ^ (i - k) * s ^ (a - (i - k)) * qb b k)
                  + s * (bin a (S i - k) * c ^ (S i - k) * s ^ (a - (S i - k)) * qb b k))).
      2:{ intros k Hk. replace (S i - k)%nat with (S (i - k)) by lia. cbn [bin pow].
          replace (S a - S (i - k))%nat with (a - (i - k))%nat by lia.
          destruct (le_lt_dec (S (i - k)) a) as [H|H].
          - replace (a - (i - k))%nat with (S (a - S (i - k))) by lia. cbn [pow]. ring.
          - rewrite (bin_gt a (S (i - k))) by lia. ring. }
      rewrite (Rsum_plus (S i)), !Rsum_scal.
      replace (S i - S i)%nat with O by lia. rewrite !bin_0, !Nat.sub_0_r. cbn [pow]. ring.
Qed.
End Rotation.

Lemma q_Rtrig a b rho s : (b <= a)%nat -> rho * rho + s * s = 1 -> q rho s a b a = Rtrig a b rho.
Proof.
  intros Hab H. rewrite q_closed. unfold qsum, Rtrig.
  rewrite (Rsum_extend (S b) (S a)).
  2: lia.
  2:{ intros i Hi. rewrite qb_closed, (bin_gt b i) by lia. ring. }
  apply Rsum_ext. intros k Hk. rewrite qb_closed. rewrite bin_sym by lia.
  replace (1 - rho ^ 2) with (s * s) by (cbn [pow]; rewrite Rmult_1_r; lra).
  replace (a - (a - k))%nat with k by lia.
  replace (- s) with ((-1) * s) by ring. rewrite !Rpow_mult_distr.
  replace (a + b - 2 * k)%nat with ((a - k) + (b - k))%nat by lia. rewrite pow_add. ring.
Qed.

Lemma Rbin_bound a b rho : (b <= a)%nat -> -1 <= rho <= 1 -> Rabs (Rbin a b rho) <= 1.
Proof.
  intros Hab Hr. rewrite Rbin_trig by assumption.
  assert (E : rho * rho + sqrt (1 - rho * rho) * sqrt (1 - rho * rho) = 1).
  { rewrite sqrt_sqrt; [lra|]. nra. }
  rewrite <- (q_Rtrig a b rho (sqrt (1 - rho * rho))) by assumption.
  apply q_bound; assumption.
Qed.
