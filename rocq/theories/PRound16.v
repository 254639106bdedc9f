(** Rounding errors of the residual. *)
From Coq Require Import Reals List Lra Lia ZArith.
From Verif Require Import PyBase PyLib Sums Num MMath MAperture MTel MRad MCore SMath SCore SFloat MFloat MFloat2 MFloat3 MFloat4 MFloat5 SRad SGain SRound SRound2 SRound3 SRound4 POrder64 PRound PRound4 PRound5 PRound6 PRound9 PRound10 PRad PFar PResid PSim PNorm PEnd PLip PRound13 PRound14 PRound15.
From Coquelicot Require Import Complex.
Import ListNotations.
Open Scope R_scope.
Open Scope list_scope.

(** ** Normalisation *)
Lemma np_min_finite v mn : In mn v -> (forall x, In x v -> mn <= x) -> np_min (map Fin v) = Ok (Fin mn).
Proof.
  intros I B. destruct v as [|x t]; [destruct I|]. unfold np_min. cbn [map]. rewrite fold_nmin_Fin. f_equal. f_equal. destruct (fold_Rmin_spec t x) as [J Q]. apply Rle_antisym; [apply Q, I|apply B, J].
Qed.
Lemma np_max_finite v mx : In mx v -> (forall x, In x v -> x <= mx) -> np_max (map Fin v) = Ok (Fin mx).
Proof.
  intros I B. destruct v as [|x t]; [destruct I|]. unfold np_max. cbn [map]. rewrite fold_nmax_Fin. f_equal. f_equal. destruct (fold_Rmax_spec t x) as [J Q]. apply Rle_antisym; [apply B, J|apply Q, I].
Qed.
Lemma norm_by64_Fin mn mx p : norm_by64 (Fin mn) (Fin mx) (Fin p) = nan_to_num (nfl (ndiv (Fin (fl (p - mn))) (Fin (fl (mx - mn))))).
Proof. reflexivity. Qed.
Lemma norm_by64_in mn mx p : mn <= p <= mx -> 0 <= norm_by64 (Fin mn) (Fin mx) (Fin p) <= 1.
Proof.
  intros H. rewrite norm_by64_Fin. unfold ndiv. destruct (Req_EM_T (fl (mx - mn)) 0) as [Z|Z].
  - assert (A : fl (p - mn) = 0). { pose proof (fl_pos (p - mn) ltac:(lra)). assert (fl (p - mn) <= fl (mx - mn)) by (apply fl_le; lra). lra. } rewrite A. unfold inf_sign. destruct (Rlt_dec 0 0); [lra|]. destruct (Rlt_dec 0 0); [lra|]. cbn. lra.
  - cbn [nfl nan_to_num]. destruct (norm64_range mn mx p p ltac:(lra) ltac:(lra) Z) as (A & B & _). unfold norm64 in *. lra.
Qed.
Lemma norm_by64_equal mn p : mn <= p <= mn -> norm_by64 (Fin mn) (Fin mn) (Fin p) = 0.
Proof.
  intros H. rewrite norm_by64_Fin. replace (p - mn) with 0 by lra. replace (mn - mn) with 0 by lra. rewrite POrder64.fl_0. unfold ndiv. destruct (Req_EM_T 0 0); [|contradiction]. unfold inf_sign. destruct (Rlt_dec 0 0); [lra|]. destruct (Rlt_dec 0 0); [lra|]. reflexivity.
Qed.
Lemma norm_by64_err mn mx p : mn <= p <= mx -> tiny <= mx - mn -> Rabs (norm_by64 (Fin mn) (Fin mx) (Fin p) - (p - mn) / (mx - mn)) <= 4 * u.
Proof.
  intros H T0. pose proof tiny_pos as Tp. destruct (quotient64 (p - mn) (mx - mn) (mx - mn) ltac:(lra) ltac:(lra) T0) as [_ Q]. rewrite norm_by64_Fin. unfold ndiv. destruct (Req_EM_T (fl (mx - mn)) 0) as [Z|Z].
  - exfalso. assert (fl tiny <= fl (mx - mn)) by (apply fl_le; lra). pose proof (fl_u tiny) as E. unfold T in E. rewrite Rabs_pos_eq with (x := tiny) in E by lra. apply Rabs_le_iff in E. pose proof u_val as U. pose proof roundoff_pos. unfold T in *. nra.
  - exact Q.
Qed.
Lemma norm_row64_nonfinite P : (exists p, In p P /\ ~ finite p) -> norm_row64 P = Ok (map (fun _ => 0) P).
Proof.
  intros (q & Hq & Nq). destruct P as [|x t]; [destruct Hq|]. unfold norm_row64, np_min, np_max. cbn [bind]. f_equal.
  assert (A1 : forall mx p, norm_by64 NaN mx p = 0) by (intros mx p; destruct mx, p; reflexivity).
  assert (A2 : forall mx p, mx <> NaN -> norm_by64 NInf mx p = 0). { intros mx p H. destruct mx, p; try congruence; unfold norm_by64; cbn; try reflexivity; try apply POrder64.fl_0. }
  assert (A3 : forall mn p, mn <> NaN -> p <> NInf -> norm_by64 mn PInf p = 0). { intros mn p H H'. destruct mn, p; try congruence; unfold norm_by64; cbn; try reflexivity; try apply POrder64.fl_0. }
  assert (Hd : forall a b : num, {a = b} + {a <> b}).
  { intros a b. destruct a, b; try (left; reflexivity); try (right; congruence). destruct (Req_EM_T r r0); [left; f_equal; assumption|right; congruence]. }
  destruct (in_dec Hd NaN (x :: t)) as [HN|HN].
  { apply map_ext_in. intros p _. rewrite (fold_nmin_in_nan t x HN). apply A1. }
  assert (N : forall p, In p (x :: t) -> p <> NaN) by (intros p Hp ->; exact (HN Hp)).
  destruct (in_dec Hd NInf (x :: t)) as [HI|HI].
  { apply map_ext_in. intros p _. rewrite (fold_nmin_ninf t x N HI). apply A2. apply fold_nmax_mem; assumption. }
  assert (HP : In PInf (x :: t)).
  { destruct q; cbn in Nq; [exfalso; apply Nq; exact I|exact Hq|contradiction|contradiction]. }
  apply map_ext_in. intros p Hp. rewrite (fold_nmax_pinf t x N HP). apply A3; [apply fold_nmin_mem; assumption|].
  intros ->. exact (HI Hp).
Qed.
Lemma norm_row64_finite v : v <> [] -> exists mn mx, In mn v /\ In mx v /\ (forall x, In x v -> mn <= x <= mx) /\ norm_row64 (map Fin v) = Ok (map (fun x => norm_by64 (Fin mn) (Fin mx) (Fin x)) v) /\
  norm_all (map Fin v) = Ok (map (fun x => if Req_EM_T mn mx then 0 else (x - mn) / (mx - mn)) v).
Proof.
  intros H. destruct (norm_finite v H) as (mn & mx & I1 & I2 & B & E). exists mn, mx. do 3 (split; [assumption|]). split; [|exact E]. unfold norm_row64.
  rewrite (np_min_finite v mn I1 (fun x Hx => proj1 (B x Hx))), (np_max_finite v mx I2 (fun x Hx => proj2 (B x Hx))). cbn [bind]. rewrite map_map. reflexivity.
Qed.
Lemma norm_row64_range P : P <> [] -> exists q64, norm_row64 P = Ok q64 /\ length q64 = length P /\ forall x, In x q64 -> 0 <= x <= 1.
Proof.
  intros H. destruct (finite_list P) as [[v ->]|NF].
  - destruct (norm_row64_finite v) as (mn & mx & I1 & I2 & B & E & _); [intros ->; apply H; reflexivity|]. eexists. split; [exact E|]. split; [rewrite !map_length; reflexivity|]. intros x Hx. apply in_map_iff in Hx as (y & <- & Hy). apply norm_by64_in, B, Hy.
  - eexists. split; [apply norm_row64_nonfinite; exact NF|]. split; [apply map_length|]. intros x Hx. apply in_map_iff in Hx as (_ & <- & _). lra.
Qed.
Lemma Forall2_maps {A} (f g : A -> R) (Q : R -> R -> Prop) l : (forall x, In x l -> Q (f x) (g x)) -> Forall2 Q (map f l) (map g l).
Proof. induction l as [|a l IH]; intros H; [constructor|]. cbn [map]. constructor; [apply H; left; reflexivity|apply IH; intros x Hx; apply H; right; exact Hx]. Qed.
Lemma norm_resolved P : P <> [] -> resolved P -> exists q q64, norm_all P = Ok q /\ norm_row64 P = Ok q64 /\ Forall2 (fun x x64 => Rabs (x64 - x) <= 4 * u) q q64.
Proof.
  intros H Rs. pose proof roundoff_pos as Up. destruct (finite_list P) as [[v ->]|NF].
  - destruct (norm_row64_finite v) as (mn & mx & I1 & I2 & B & E & E'); [intros ->; apply H; reflexivity|]. eexists. eexists. split; [exact E'|]. split; [exact E|]. apply Forall2_maps. intros x Hx. pose proof (B x Hx) as Bx.
    destruct (Rs mx mn (in_map Fin _ _ I2) (in_map Fin _ _ I1)) as [Q|Q].
    + subst mx. destruct (Req_EM_T mn mn); [|contradiction]. rewrite norm_by64_equal by exact Bx. rewrite Rminus_0_r, Rabs_R0. lra.
    + pose proof tiny_pos. rewrite Rabs_pos_eq in Q by lra. destruct (Req_EM_T mn mx); [lra|]. apply norm_by64_err; assumption.
  - eexists. eexists. split; [apply norm_nonfinite; exact NF|]. split; [apply norm_row64_nonfinite; exact NF|]. apply Forall2_maps. intros x _. rewrite Rminus_0_r, Rabs_R0. lra.
Qed.
(** A modelled map. *)
Lemma Forall2_trans3 {A B C} (P : A -> B -> Prop) (Q : B -> C -> Prop) (S : A -> C -> Prop) a b c : (forall x y z, P x y -> Q y z -> S x z) -> Forall2 P a b -> Forall2 Q b c -> Forall2 S a c.
Proof. intros H F. revert c. induction F as [|x y a b Pxy F IH]; intros c G; inversion G; subst; [constructor|]. constructor; [eapply H; eassumption|apply IH; assumption]. Qed.
Lemma Forall2_of_map2 (a b : list R) (e : R) : length a = length b -> (forall x, In x (map2 Rminus b a) -> Rabs x <= e) -> Forall2 (fun x y => Rabs (y - x) <= e) a b.
Proof. revert b. induction a as [|x a IH]; intros [|y b] L H; try discriminate; [constructor|]. constructor; [apply H; left; reflexivity|apply IH; [cbn in L; lia|intros z Hz; apply H; right; exact Hz]]. Qed.
Lemma Forall2_all {A B} (Q : A -> B -> Prop) a b : length a = length b -> (forall x y, In x a -> In y b -> Q x y) -> Forall2 Q a b.
Proof. revert b. induction a as [|x a IH]; intros [|y b] L H; try discriminate; [constructor|]. constructor; [apply H; left; reflexivity|apply IH; [cbn in L; lia|intros; apply H; right; assumption]]. Qed.
Lemma norm_model e D m m64 : tiny <= e -> 0 < D -> close e m64 m -> (exists s t, In s m /\ In t m /\ D <= t - s) ->
  exists q q64, norm_all (map Fin m) = Ok q /\ norm_row64 (map Fin m64) = Ok q64 /\ Forall2 (fun x x64 => Rabs (x64 - x) <= 4 * e / D + 4 * u) q q64.
Proof.
  intros Te HD Hc (s & t & Hs & Ht & Hst). pose proof tiny_pos as Tp. pose proof roundoff_pos as Up. pose proof (close_length _ _ _ Hc) as L.
  assert (N1 : m <> []) by (intros ->; exact Hs). assert (N2 : m64 <> []) by (intros ->; destruct m; [contradiction|discriminate]).
  destruct (norm_row64_finite m64 N2) as (mn & mx & I1 & I2 & B & E64 & E'). destruct (norm_finite m N1) as (mn0 & mx0 & J1 & J2 & B0 & E0).
  eexists. eexists. split; [exact E0|]. split; [exact E64|].
  destruct (Rlt_le_dec D (4 * e)) as [W|W].
  - apply Forall2_all; [rewrite !map_length; lia|]. intros x y Hx Hy. destruct (norm_range _ _ E0) as [_ R0]. specialize (R0 x Hx). apply in_map_iff in Hy as (z & <- & Hz). pose proof (norm_by64_in mn mx z (B z Hz)) as R1.
    assert (1 <= 4 * e / D). { apply Rmult_le_reg_r with D; [exact HD|]. unfold Rdiv. rewrite Rmult_assoc, Rinv_l by lra. lra. } apply Rabs_le. lra.
  - destruct (norm_close e D m64 m _ _ HD Hc (ex_intro _ s (ex_intro _ t (conj Hs (conj Ht Hst)))) E' E0) as (L1 & L2 & Cl).
    assert (Cl2 := Forall2_of_map2 _ _ _ (eq_trans L2 (eq_sym L1)) Cl).
    refine (Forall2_trans3 _ _ _ _ _ _ _ Cl2 (Forall2_maps (fun x => if Req_EM_T mn mx then 0 else (x - mn) / (mx - mn)) (fun x => norm_by64 (Fin mn) (Fin mx) (Fin x)) (fun x x64 => Rabs (x64 - x) <= 4 * u) m64 _)).
    + intros x y z A1 A2. replace (z - x) with ((z - y) + (y - x)) by ring. eapply Rle_trans; [apply Rabs_triang|]. lra.
    + intros x Hx. assert (T2 : tiny <= mx - mn).
      { destruct (close_in2 e m64 m s Hc Hs) as (s' & S1 & S2). destruct (close_in2 e m64 m t Hc Ht) as (t' & T1 & T2). apply Rabs_le_iff in S2. apply Rabs_le_iff in T2. pose proof (B s' S1). pose proof (B t' T1). lra. }
      destruct (Req_EM_T mn mx); [lra|]. apply norm_by64_err; [apply B, Hx|exact T2].
Qed.

(** ** One map *)
Section Row.
Variables (e ef : R) (m : maths) (n : nat) (K : list R) (pr sr a L Fp F bf wavel i_amp c_dB q x0 y0 : R) (N : nat).
Hypotheses (Ue : u <= e) (Hm : accurate_maths e m) (Hfft : accurate_fft ef (m_fft m)) (Hef : 0 <= ef <= / 1000) (HN : INR N <= 2 ^ 20)
  (Hopen : exists i j, (i < N)%nat /\ (j < N)%nat /\ block_manual pr sr a L (sample (pr * bf) N i) (sample (pr * bf) N j) <> 0).
Let Ic := [i_amp; c_dB; q; x0; y0].
Let h := grid_step pr wavel N bf.
Let ge := INR N ^ 2 * / 2 ^ 50.
Let top := (Rabs i_amp * over_samples (pr * bf) N (block_manual pr sr a L)) ^ 2.

Lemma ge_range : 0 <= ge <= / 100 /\ 82 * u <= 8 * INR 2 ^ 2 * / 2 ^ 50.
Proof.
  assert (0 <= INR N) by apply pos_INR. assert (P50 : 0 < / 2 ^ 50) by (apply Rinv_0_lt_compat, pow_lt; lra). split.
  - unfold ge. split; [apply Rmult_le_pos; [apply pow2_ge_0|lra]|]. apply Rle_trans with ((2 ^ 20) ^ 2 * / 2 ^ 50); [apply Rmult_le_compat_r; [lra|]; apply pow_incr; lra|]. lra.
  - rewrite u_val. cbn [INR]. lra.
Qed.
Lemma top_tiny z : within_reach e n K pr sr a L Fp F bf wavel z i_amp c_dB q x0 y0 N -> / 2 ^ 200 <= top.
Proof.
  intros (_ & _ & _ & _ & Ha & _). destruct Hopen as (i & j & Hi & Hj & Hb). pose proof (open_sum pr sr a L (pr * bf) N i j Hi Hj Hb) as O. unfold top. assert (P : 0 < / 2 ^ 100) by (apply Rinv_0_lt_compat, pow_lt; lra).
  replace (/ 2 ^ 200) with ((/ 2 ^ 100) ^ 2) by (rewrite pow_inv, <- pow_mult; reflexivity). apply pow_incr. split; [lra|]. rewrite <- (Rmult_1_r (/ 2 ^ 100)). apply Rmult_le_compat; lra.
Qed.
Lemma step_tiny z : within_reach e n K pr sr a L Fp F bf wavel z i_amp c_dB q x0 y0 N -> (2 <= N)%nat /\ 0 < wavel /\ 0 < pr /\ 0 < bf /\ tiny <= h.
Proof.
  intros (_ & _ & (Hp & Hb & Hpb & _ & N2 & _ & _ & _ & _ & _ & _ & Hwl) & _). assert (P : 0 < / 2 ^ 100) by (apply Rinv_0_lt_compat, pow_lt; lra). split; [exact N2|]. do 3 (split; [lra|]). destruct small_300 as [T3 _].
  assert (I2 : 2 <= INR N) by (apply le_INR in N2; cbn [INR] in N2; lra). apply Rle_trans with (1 := T3). apply Rle_trans with (/ 2 ^ 100 * / 2 ^ 102); [rewrite <- Rinv_mult, <- pow_add; apply Rinv_le_contravar; [apply pow_lt; lra|apply Rle_pow; [lra|lia]]|].
  unfold h, grid_step. replace (wavel * (INR N - 1) / (2 * (bf * pr) * INR N)) with (wavel * ((1 - / INR N) * / (2 * (pr * bf)))) by (field; split; [lra|split; lra]).
  assert (B0 : 0 < pr * bf) by (apply Rmult_lt_0_compat; lra). assert (Hi : / INR N <= / 2) by (apply Rinv_le_contravar; lra). assert (J : / (2 * 2 ^ 100) <= / (2 * (pr * bf))) by (apply Rinv_le_contravar; lra). assert (P2 : 0 < / 2 ^ 102) by (apply Rinv_0_lt_compat, pow_lt; lra).
  apply Rmult_le_compat; [lra|lra|lra|]. replace (/ 2 ^ 102) with (/ 2 * / (2 * 2 ^ 100)) by (rewrite <- Rinv_mult; f_equal; ring). assert (0 < / (2 * 2 ^ 100)) by (apply Rinv_0_lt_compat; assert (0 < 2 ^ 100) by (apply pow_lt; lra); lra). apply Rmult_le_compat; lra.
Qed.
Lemma pattern_both z : within_reach e n K pr sr a L Fp F bf wavel z i_amp c_dB q x0 y0 N ->
  exists ua F0 ua64 F64, radiation_pattern illum_parabolic (manual pr sr a L Fp F) Ic K z wavel N bf = Ok (ua, ua, F0) /\ radiation_pattern64 m (illum_parabolic64 m) (manual64 pr sr a L Fp F) Ic K z wavel N bf = Ok (ua64, ua64, F64) /\
  length ua = N /\ length ua64 = N /\ (forall k, (k < N)%nat -> nth k ua 0 = (INR k - INR (N / 2)) * h) /\ (forall k, (k < N)%nat -> Rabs (nth k ua64 0 - nth k ua 0) <= INR N * / 2 ^ 49 * Rabs (nth k ua 0)) /\
  forall j i, (j < N)%nat -> (i < N)%nat -> Rabs (nth i (nth j (power_pattern64 m F64) []) 0 - nth i (nth j (power_pattern F0) []) 0) <= 5 * (field_loss n bf q (turns K z wavel) * e + ef) * top /\ 0 <= nth i (nth j (power_pattern F0) []) 0 <= top.
Proof.
  intros Hw. destruct (step_tiny z Hw) as (N2 & W0 & P0 & B0 & _).
  destruct (pattern_api e ef m n K pr sr a L Fp F bf wavel z i_amp c_dB q x0 y0 N Ue Hm Hw Hfft Hef) as (ua & va & F0 & ua64 & va64 & F64 & E1 & E2 & L1 & V1 & _ & A1 & _).
  destruct (power_api e ef m n K pr sr a L Fp F bf wavel z i_amp c_dB q x0 y0 N Ue Hm Hw Hfft Hef Hopen) as (ua' & va' & F0' & ua64' & va64' & F64' & E1' & E2' & Pw). fold Ic in E1, E2, E1', E2'.
  rewrite E1 in E1'. apply Ok_inj in E1'. rewrite E2 in E2'. apply Ok_inj in E2'. assert (F0' = F0) by congruence. assert (F64' = F64) by congruence. subst F0' F64'. clear E1' E2'.
  destruct (axes_api _ (manual pr sr a L Fp F) _ _ _ _ _ _ _ _ _ W0 P0 B0 E1) as (Q & Lu & _ & _ & _ & A). cbv zeta in A. destruct A as (_ & An & _). cbn [tel_pr manual] in An. subst va va64.
  exists ua, F0, ua64, F64. split; [exact E1|]. split; [exact E2|]. split; [exact Lu|]. split; [exact L1|]. split; [exact An|]. split; [exact A1|]. exact Pw.
Qed.

Section Axes.
Variables (ua ua64 : list R).
Hypotheses (N2 : (2 <= N)%nat) (Hh : tiny <= h) (L1 : length ua = N) (L2 : length ua64 = N) (An : forall k, (k < N)%nat -> nth k ua 0 = (INR k - INR (N / 2)) * h)
  (Ae : forall k, (k < N)%nat -> Rabs (nth k ua64 0 - nth k ua 0) <= INR N * / 2 ^ 49 * Rabs (nth k ua 0)).
Lemma half_facts : 0 <= INR (N - 1) - INR (N / 2) /\ INR (N - 1) - INR (N / 2) <= INR (N / 2) /\ INR (N / 2) <= INR N / 2 /\ 0 < h /\ 0 <= INR N * / 2 ^ 49 <= / 2 ^ 29.
Proof.
  pose proof tiny_pos. pose proof (Nat.div_mod N 2 ltac:(lia)) as D. pose proof (Nat.mod_upper_bound N 2 ltac:(lia)) as M. assert (H1 : (N / 2 <= N - 1)%nat) by lia. assert (H2 : (N - 1 <= 2 * (N / 2))%nat) by lia. assert (H3 : (2 * (N / 2) <= N)%nat) by lia.
  apply le_INR in H1. apply le_INR in H2. apply le_INR in H3. rewrite mult_INR in H2, H3. replace (INR 2) with 2 in * by (cbn [INR]; lra). assert (0 < / 2 ^ 49) by (apply Rinv_0_lt_compat, pow_lt; lra). pose proof (pos_INR N).
  do 3 (split; [lra|]). split; [lra|]. split; [apply Rmult_le_pos; lra|]. replace (/ 2 ^ 29) with (2 ^ 20 * / 2 ^ 49) by lra. apply Rmult_le_compat_r; lra.
Qed.
Lemma axis_ge k : (k < N)%nat -> Rabs (nth k ua64 0 - nth k ua 0) <= ge * h.
Proof.
  intros Hk. destruct half_facts as (H1 & H2 & H3 & H4 & H5). eapply Rle_trans; [exact (Ae k Hk)|]. rewrite An by exact Hk. rewrite Rabs_mult, (Rabs_pos_eq h) by lra.
  assert (Kk : (k <= N - 1)%nat) by lia. apply le_INR in Kk. assert (0 <= INR k) by apply pos_INR. assert (B : Rabs (INR k - INR (N / 2)) <= INR N / 2) by (apply Rabs_le; lra).
  unfold ge. replace (INR N ^ 2 * / 2 ^ 50 * h) with (INR N * / 2 ^ 49 * (INR N / 2 * h)). 2: { replace (2 ^ 50) with (2 * 2 ^ 49) by ring. rewrite Rinv_mult. field. }
  apply Rmult_le_compat_l; [lra|]. apply Rmult_le_compat_r; lra.
Qed.
Lemma first_last : nth 0 ua 0 = - (INR (N / 2) * h) /\ nth (N - 1) ua 0 = (INR (N - 1) - INR (N / 2)) * h /\
  Rabs (nth 0 ua64 0 + INR (N / 2) * h) <= INR N * / 2 ^ 49 * (INR (N / 2) * h) /\ Rabs (nth (N - 1) ua64 0 - (INR (N - 1) - INR (N / 2)) * h) <= INR N * / 2 ^ 49 * ((INR (N - 1) - INR (N / 2)) * h).
Proof.
  destruct half_facts as (H1 & H2 & H3 & H4 & H5). assert (A0 : nth 0 ua 0 = - (INR (N / 2) * h)) by (rewrite An by lia; cbn [INR]; ring). assert (A1 : nth (N - 1) ua 0 = (INR (N - 1) - INR (N / 2)) * h) by (apply An; lia).
  split; [exact A0|]. split; [exact A1|]. pose proof (Ae 0%nat ltac:(lia)) as E0. pose proof (Ae (N - 1)%nat ltac:(lia)) as E1. rewrite A0 in E0. rewrite A1 in E1.
  assert (0 <= INR (N / 2) * h) by (apply Rmult_le_pos; [apply pos_INR|lra]). assert (0 <= (INR (N - 1) - INR (N / 2)) * h) by (apply Rmult_le_pos; lra).
  rewrite Rabs_Ropp, (Rabs_pos_eq (INR (N / 2) * h)) in E0 by lra. rewrite (Rabs_pos_eq ((INR (N - 1) - INR (N / 2)) * h)) in E1 by lra. split; [|exact E1]. replace (nth 0 ua64 0 + INR (N / 2) * h) with (nth 0 ua64 0 - - (INR (N / 2) * h)) by ring. exact E0.
Qed.
Lemma bounds_in x : well_inside h N x -> in_bounds ua x = true /\ in_bounds ua64 x = true.
Proof.
  intros Hx. destruct half_facts as (H1 & H2 & H3 & H4 & H5). destruct first_last as (A0 & A1 & E0 & E1). apply Rabs_le_iff in E0. apply Rabs_le_iff in E1. unfold well_inside in Hx. apply Rabs_le_iff in Hx.
  set (d := INR N * / 2 ^ 49) in *. assert (D1 : d <= 1) by (assert (/ 2 ^ 29 <= 1) by (rewrite <- Rinv_1; apply Rinv_le_contravar; [lra|apply pow_R1_Rle; lra]); lra).
  assert (0 <= (INR (N - 1) - INR (N / 2)) * h) by (apply Rmult_le_pos; lra). assert (Q : (INR (N - 1) - INR (N / 2)) * h <= INR (N / 2) * h) by (apply Rmult_le_compat_r; lra).
  set (B := (INR (N - 1) - INR (N / 2)) * h) in *. set (A := INR (N / 2) * h) in *. assert (B * (1 - d) <= A * (1 - d)) by (apply Rmult_le_compat_r; lra). assert (0 <= B * d) by (apply Rmult_le_pos; lra).
  unfold in_bounds. rewrite L1, L2, A0, A1. split; apply Bool.andb_true_iff; split; apply Rleb_true; lra.
Qed.
Lemma bounds_out x : well_outside h N x -> in_bounds ua x = false /\ in_bounds ua64 x = false.
Proof.
  intros Hx. destruct half_facts as (H1 & H2 & H3 & H4 & H5). destruct first_last as (A0 & A1 & E0 & E1). apply Rabs_le_iff in E0. apply Rabs_le_iff in E1. unfold well_outside in Hx.
  set (d := INR N * / 2 ^ 49) in *. assert (0 <= (INR (N - 1) - INR (N / 2)) * h) by (apply Rmult_le_pos; lra). assert (Q : (INR (N - 1) - INR (N / 2)) * h <= INR (N / 2) * h) by (apply Rmult_le_compat_r; lra).
  set (B := (INR (N - 1) - INR (N / 2)) * h) in *. set (A := INR (N / 2) * h) in *. assert (B * (1 + d) <= A * (1 + d)) by (apply Rmult_le_compat_r; lra). assert (0 <= B * d) by (apply Rmult_le_pos; lra). assert (0 <= A * d) by (apply Rmult_le_pos; lra).
  unfold in_bounds. rewrite L1, L2, A0, A1. split; apply Bool.andb_false_iff; destruct (Rle_dec 0 x) as [Z|Z].
  - right. apply Rleb_false. rewrite Rabs_pos_eq in Hx by lra. lra.
  - left. apply Rleb_false. rewrite Rabs_left in Hx by lra. lra.
  - right. apply Rleb_false. rewrite Rabs_pos_eq in Hx by lra. lra.
  - left. apply Rleb_false. rewrite Rabs_left in Hx by lra. lra.
Qed.
End Axes.

Lemma row_api u_data v_data d_z i z xs ys l : within_reach e n K pr sr a L Fp F bf wavel z i_amp c_dB q x0 y0 N -> field_loss n bf q (turns K z wavel) * e + ef <= l ->
  nth_error d_z i = Some z -> nth_error u_data i = Some xs -> nth_error v_data i = Some ys -> length xs = length ys -> (forall x, In x (xs ++ ys) -> well_inside h N x) ->
  exists row row64, model_row illum_parabolic (manual pr sr a L Fp F) (Ic ++ K) u_data v_data d_z wavel N bf i = Ok row /\ length row = length xs /\
    model_row64 m (illum_parabolic64 m) (manual64 pr sr a L Fp F) (Ic ++ K) u_data v_data d_z wavel N bf i = Ok row64 /\ close ((5 * l + INR N ^ 2 * / 2 ^ 46) * top) row64 row.
Proof.
  intros Hw Hl Hz Hx Hy HL HP. destruct (step_tiny z Hw) as (N2 & W0 & P0 & B0 & Hh). pose proof (top_tiny z Hw) as Ht. destruct (pattern_both z Hw) as (ua & F0 & ua64 & F64 & E1 & E2 & L1 & L2 & An & Ae & Pw). destruct ge_range as [Hge Hu]. destruct small_300 as [T3 _].
  assert (Tt : tiny <= top). { apply Rle_trans with (1 := T3). apply Rle_trans with (2 := Ht). apply Rinv_le_contravar; [apply pow_lt; lra|apply Rle_pow; [lra|lia]]. } pose proof tiny_pos as Tp.
  assert (Hfl : 0 <= field_loss n bf q (turns K z wavel) * e + ef <= 2 / 1000).
  { destruct Hw as (_ & _ & _ & _ & _ & _ & _ & Hfe). split; [|lra]. destruct (Pw 0%nat 0%nat ltac:(lia) ltac:(lia)) as [Q _]. pose proof (Rle_trans _ _ _ (Rabs_pos _) Q) as Q'. apply Rmult_le_reg_r with (5 * top); lra. }
  assert (BX : forall x, In x (xs ++ ys) -> in_bounds ua x = true /\ in_bounds ua64 x = true) by (intros x I1; apply (bounds_in ua ua64 N2 Hh L1 L2 An Ae), HP, I1).
  assert (BXx : forall x, In x xs -> in_bounds ua x = true /\ in_bounds ua64 x = true) by (intros x I1; apply BX, in_app_iff; left; exact I1). assert (BXy : forall x, In x ys -> in_bounds ua x = true /\ in_bounds ua64 x = true) by (intros x I1; apply BX, in_app_iff; right; exact I1). clear BX HP.
  unfold model_row, model_row64, py_get. rewrite Hz, Hx, Hy. cbn [bind]. unfold Ic in *. cbn [app firstn skipn]. rewrite E1, E2. cbn [bind]. unfold interp_points, interp_points64. rewrite HL, Nat.eqb_refl.
  assert (Fa : forall l (g : list R), (forall x, In x l -> in_bounds g x = true) -> forallb (in_bounds g) l = true) by (intros l0 g Hg; apply forallb_forall; exact Hg).
  rewrite !(Fa _ _ (fun x I1 => proj1 (BXx x I1))), !(Fa _ _ (fun x I1 => proj1 (BXy x I1))), !(Fa _ _ (fun x I1 => proj2 (BXx x I1))), !(Fa _ _ (fun x I1 => proj2 (BXy x I1))). cbn [andb].
  eexists. eexists. split; [reflexivity|]. split; [rewrite map2_length; assumption|]. split; [reflexivity|].
  assert (G2 : INR 2 ^ 2 <= INR N ^ 2) by (apply pow_incr; split; [apply pos_INR|apply le_INR, N2]). assert (P50 : 0 < / 2 ^ 50) by (apply Rinv_0_lt_compat, pow_lt; lra).
  assert (Bd : 5 * (field_loss n bf q (turns K z wavel) * e + ef) * top + 8 * ge * top + 82 * u * top <= (5 * l + INR N ^ 2 * / 2 ^ 46) * top).
  { replace (5 * (field_loss n bf q (turns K z wavel) * e + ef) * top + 8 * ge * top + 82 * u * top) with ((5 * (field_loss n bf q (turns K z wavel) * e + ef) + 8 * ge + 82 * u) * top) by ring. apply Rmult_le_compat_r; [lra|].
    assert (82 * u <= 8 * ge). { apply Rle_trans with (1 := Hu). unfold ge. assert (INR 2 ^ 2 * / 2 ^ 50 <= INR N ^ 2 * / 2 ^ 50) by (apply Rmult_le_compat_r; lra). lra. }
    assert (16 * ge = INR N ^ 2 * / 2 ^ 46). { unfold ge. replace (/ 2 ^ 46) with (16 * / 2 ^ 50) by lra. ring. } lra. }
  clear Hx Hy. revert ys HL BXy. induction xs as [|x xs IH]; intros [|y ys] HL BXy; try discriminate; [constructor|]. cbn [map2]. constructor.
  - eapply Rle_trans; [|exact Bd]. apply (interp64_err N h (INR (N / 2)) ge ua ua64 N2 Hh Hge L1 L2 An (axis_ge ua ua64 N2 Hh L1 L2 An Ae)).
    + split; [apply Rmult_le_pos; lra|]. rewrite <- (Rmult_1_l top) at 2. apply Rmult_le_compat_r; lra.
    + exact Tt.
    + intros a0 b0 Ha0 Hb0. destruct (Pw b0 a0 Hb0 Ha0) as [Q1 Q2]. split; assumption.
    + apply (BXx x). left. reflexivity.
    + apply (BXx x). left. reflexivity.
    + apply (BXy y). left. reflexivity.
    + apply (BXy y). left. reflexivity.
  - apply IH; [intros x' I1; apply BXx; right; exact I1|cbn in HL; lia|intros x' I1; apply BXy; right; exact I1].
Qed.

Lemma row_total u_data v_data d_z i z xs ys : within_reach e n K pr sr a L Fp F bf wavel z i_amp c_dB q x0 y0 N ->
  nth_error d_z i = Some z -> nth_error u_data i = Some xs -> nth_error v_data i = Some ys -> length xs = length ys ->
  let ex := model_row illum_parabolic (manual pr sr a L Fp F) (Ic ++ K) u_data v_data d_z wavel N bf i in
  let fx := model_row64 m (illum_parabolic64 m) (manual64 pr sr a L Fp F) (Ic ++ K) u_data v_data d_z wavel N bf i in
  ((exists r, ex = Ok r /\ length r = length xs) \/ ex = Err ValueError) /\ ((exists r, fx = Ok r /\ length r = length xs) \/ fx = Err ValueError) /\
  ((exists x, In x (xs ++ ys) /\ well_outside h N x) -> ex = Err ValueError /\ fx = Err ValueError).
Proof.
  intros Hw Hz Hx Hy HL ex fx. destruct (step_tiny z Hw) as (N2 & W0 & P0 & B0 & Hh). destruct (pattern_both z Hw) as (ua & F0 & ua64 & F64 & E1 & E2 & L1 & L2 & An & Ae & Pw).
  unfold ex, fx, model_row, model_row64, py_get. rewrite Hz, Hx, Hy. cbn [bind]. unfold Ic in *. cbn [app firstn skipn]. rewrite E1, E2. cbn [bind]. unfold interp_points, interp_points64. rewrite HL, Nat.eqb_refl.
  split; [|split].
  - destruct (forallb (in_bounds ua) xs && forallb (in_bounds ua) ys)%bool; [left; eexists; split; [reflexivity|rewrite map2_length; assumption]|right; reflexivity].
  - destruct (forallb (in_bounds ua64) xs && forallb (in_bounds ua64) ys)%bool; [left; eexists; split; [reflexivity|rewrite map2_length; assumption]|right; reflexivity].
  - intros (x & I1 & O). destruct (bounds_out ua ua64 N2 Hh L1 L2 An Ae x O) as [B1 B2].
    assert (Fo : forall (g : list R), in_bounds g x = false -> (forallb (in_bounds g) xs && forallb (in_bounds g) ys)%bool = false).
    { intros g Hg. apply Bool.not_true_iff_false. intros A. apply Bool.andb_true_iff in A as [A1 A2]. rewrite forallb_forall in A1, A2. apply in_app_iff in I1 as [I1|I1]; [rewrite (A1 x I1) in Hg|rewrite (A2 x I1) in Hg]; discriminate. }
    rewrite (Fo ua B1), (Fo ua64 B2). split; reflexivity.
Qed.
End Row.
