(** C30, C31: discrete Fourier transform and frequency axes. *)
From Verif Require Import PyBase PyLib Sums MMath MAperture PPhase MRad PAper.
From Coquelicot Require Import Coquelicot.
Open Scope R_scope.

(** * Complex sums *)
Lemma Csum_ext n f g : (forall i, (i < n)%nat -> f i = g i) -> Csum n f = Csum n g.
Proof. induction n as [|n IH]; cbn; intros H; [reflexivity|]. rewrite IH by (intros; apply H; lia). rewrite H by lia. reflexivity. Qed.
Lemma Csum_0 n f : (forall i, (i < n)%nat -> f i = RtoC 0) -> Csum n f = RtoC 0.
Proof. induction n as [|n IH]; cbn; intros H; [reflexivity|]. rewrite IH by (intros; apply H; lia). rewrite H by lia. apply Cplus_0_l. Qed.
Lemma Csum_plus n f g : Csum n (fun i => Cplus (f i) (g i)) = Cplus (Csum n f) (Csum n g).
Proof. induction n as [|n IH]; cbn; [symmetry; apply Cplus_0_l|]. rewrite IH. ring. Qed.
Lemma Csum_scal n c f : Csum n (fun i => Cmult c (f i)) = Cmult c (Csum n f).
Proof. induction n as [|n IH]; cbn; [symmetry; apply Cmult_0_r|]. rewrite IH. ring. Qed.
Lemma Csum_scal_r n c f : Csum n (fun i => Cmult (f i) c) = Cmult (Csum n f) c.
Proof. induction n as [|n IH]; cbn; [symmetry; apply Cmult_0_l|]. rewrite IH. ring. Qed.
Lemma Csum_swap n m f : Csum n (fun i => Csum m (fun j => f i j)) = Csum m (fun j => Csum n (fun i => f i j)).
Proof.
  induction n as [|n IH]; cbn [Csum].
  - rewrite Csum_0; auto.
  - rewrite IH, <- Csum_plus. reflexivity.
Qed.
Lemma Csum_conj n f : Cconj (Csum n f) = Csum n (fun i => Cconj (f i)).
Proof.
  induction n as [|n IH]; cbn [Csum].
  - unfold Cconj, RtoC. cbn. f_equal. ring.
  - rewrite <- IH. unfold Cconj, Cplus. cbn. f_equal. ring.
Qed.
Lemma Csum_single n k f : (k < n)%nat -> (forall i, (i < n)%nat -> i <> k -> f i = RtoC 0) -> Csum n f = f k.
Proof.
  induction n as [|n IH]; intros Hk H; [lia|]. cbn [Csum]. destruct (Nat.eq_dec k n) as [->|N].
  - rewrite Csum_0 by (intros; apply H; lia). apply Cplus_0_l.
  - rewrite IH by (first [lia|intros; apply H; lia]). rewrite (H n) by lia. apply Cplus_0_r.
Qed.
Lemma Csum_Sl n f : Csum (S n) f = Cplus (f O) (Csum n (fun i => f (S i))).
Proof. induction n as [|n IH]; [cbn; ring|]. change (Csum (S (S n)) f) with (Cplus (Csum (S n) f) (f (S n))). rewrite IH. cbn [Csum]. ring. Qed.
Lemma Csum_rev n f : Csum n f = Csum n (fun i => f (n - 1 - i)%nat).
Proof.
  induction n as [|n IH]; [reflexivity|]. rewrite (Csum_Sl n (fun i => f (S n - 1 - i)%nat)). cbn [Csum]. rewrite IH.
  replace (S n - 1 - 0)%nat with n by lia. rewrite Cplus_comm. f_equal. apply Csum_ext. intros i Hi. f_equal. lia.
Qed.
Lemma Cmod_Csum n f : Cmod (Csum n f) <= Rsum n (fun i => Cmod (f i)).
Proof. induction n as [|n IH]; cbn. rewrite Cmod_0. lra. eapply Rle_trans; [apply Cmod_triangle|]. lra. Qed.
Lemma Csum_RtoC n f : Csum n (fun i => RtoC (f i)) = RtoC (Rsum n f).
Proof. induction n as [|n IH]; cbn; [reflexivity|]. rewrite IH. unfold RtoC, Cplus. cbn. f_equal. ring. Qed.

Lemma Cmod_sq z : RtoC (Cmod z ^ 2) = Cmult z (Cconj z).
Proof.
  destruct z as [a b]. unfold Cmod, Cmult, Cconj, RtoC. cbn [fst snd].
  rewrite pow2_sqrt by nra. f_equal; ring.
Qed.
Lemma RtoC_inj_eq a b : RtoC a = RtoC b -> a = b.
Proof. unfold RtoC. congruence. Qed.

(** * Roots of unity *)
Lemma cis_INR n t : Csum n (fun k => cis (INR k * t)) = Csum n (fun k => pow_n (cis t) k).
Proof.
  apply Csum_ext. intros i _. induction i as [|i IH].
  - cbn. rewrite Rmult_0_l. apply cis_0.
  - rewrite S_INR, Rmult_plus_distr_r, Rmult_1_l, cis_plus, IH. cbn [pow_n]. apply Cmult_comm.
Qed.

Lemma geom n z : Cmult (Cminus z (RtoC 1)) (Csum n (fun k => pow_n z k)) = Cminus (pow_n z n) (RtoC 1).
Proof.
  induction n as [|n IH]; cbn [Csum pow_n].
  - change (@one C_Ring) with (RtoC 1). ring.
  - rewrite Cmult_plus_distr_l, IH. change (@mult C_Ring z (pow_n z n)) with (Cmult z (pow_n z n)). ring.
Qed.

Lemma cis_pow t n : pow_n (cis t) n = cis (INR n * t).
Proof.
  induction n as [|n IH]; [cbn; rewrite Rmult_0_l, cis_0; reflexivity|].
  rewrite S_INR, Rmult_plus_distr_r, Rmult_1_l, cis_plus. cbn [pow_n]. rewrite IH. apply Cmult_comm.
Qed.

Lemma cis_2pi_int (k : Z) : cis (2 * PI * IZR k) = RtoC 1.
Proof. replace (2 * PI * IZR k) with (0 + IZR k * (2 * PI)) by ring. rewrite cis_period. apply cis_0. Qed.

Lemma cis_eq_1 t : cis t = RtoC 1 -> exists k : Z, t = 2 * PI * IZR k.
Proof.
  intros H. unfold cis, RtoC in H. injection H as Hc Hs.
  destruct (angle_period t 0) as [k Hk]; [rewrite cos_0; exact Hc|rewrite sin_0; exact Hs|]. exists k. rewrite Hk. ring.
Qed.

(** sum_k exp(2 pi i k d / n) = 0 unless n divides d. *)
Lemma root_sum n (d : Z) : (0 < n)%nat -> ~ (Z.of_nat n | d)%Z -> Csum n (fun k => cis (INR k * (2 * PI * (IZR d / INR n)))) = RtoC 0.
Proof.
  intros Hn Hd. assert (HN : INR n <> 0) by (apply not_0_INR; lia).
  rewrite cis_INR. set (z := cis (2 * PI * (IZR d / INR n))).
  pose proof (geom n z) as G. unfold z in G at 3. rewrite cis_pow in G.
  replace (INR n * (2 * PI * (IZR d / INR n))) with (2 * PI * IZR d) in G by (field; assumption).
  rewrite cis_2pi_int in G. replace (Cminus (RtoC 1) (RtoC 1)) with (RtoC 0) in G by ring.
  assert (Hz : Cminus z (RtoC 1) <> RtoC 0).
  { intros E. assert (z = RtoC 1) as E1 by (replace z with (Cplus (Cminus z (RtoC 1)) (RtoC 1)) by ring; rewrite E; ring).
    apply cis_eq_1 in E1 as [k Hk]. apply Hd. exists k. pose proof PI_RGT_0.
    assert (E2 : IZR d / INR n = IZR k) by (apply Rmult_eq_reg_l with (2 * PI); lra).
    apply eq_IZR. rewrite mult_IZR, <- INR_IZR_INZ, <- E2. field. assumption. }
  rewrite <- (Cmult_1_l (Csum n _)). rewrite <- (Cinv_l _ Hz), <- Cmult_assoc, G. apply Cmult_0_r.
Qed.

(** * Parseval *)
Definition dft (n : nat) (f : nat -> C) (k : nat) : C := Csum n (fun j => Cmult (f j) (cis (- (2 * PI * (INR k * INR j / INR n))))).

Lemma dft_parseval n f : (0 < n)%nat -> Rsum n (fun k => Cmod (dft n f k) ^ 2) = INR n * Rsum n (fun j => Cmod (f j) ^ 2).
Proof.
  intros Hn. assert (HN : INR n <> 0) by (apply not_0_INR; lia). apply RtoC_inj_eq.
  rewrite <- Csum_RtoC. rewrite <- Rsum_scal, <- Csum_RtoC.
  rewrite (Csum_ext n _ (fun k => Csum n (fun j => Csum n (fun j' => Cmult (Cmult (f j) (Cconj (f j'))) (cis (INR k * (2 * PI * (IZR (Z.of_nat j' - Z.of_nat j) / INR n)))))))).
  2:{ intros k Hk. rewrite Cmod_sq. unfold dft at 1. rewrite <- Csum_scal_r. apply Csum_ext. intros j Hj.
      unfold dft. rewrite Csum_conj, <- Csum_scal. apply Csum_ext. intros j' Hj'.
      rewrite Cmult_conj, cis_conj, minus_IZR, <- !INR_IZR_INZ.
      replace (INR k * (2 * PI * ((INR j' - INR j) / INR n))) with (- (2 * PI * (INR k * INR j / INR n)) + - - (2 * PI * (INR k * INR j' / INR n))) by (field; assumption).
      rewrite cis_plus. ring. }
  rewrite Csum_swap. apply Csum_ext. intros j Hj. rewrite Csum_swap.
  rewrite (Csum_single n j).
  - rewrite Csum_scal. rewrite (Csum_ext n _ (fun _ => RtoC 1)).
    + rewrite Csum_RtoC, Rsum_const, Rmult_1_r, <- Cmod_sq. unfold RtoC, Cmult. cbn. f_equal; ring.
    + intros k Hk. rewrite Z.sub_diag. replace (INR k * (2 * PI * (0 / INR n))) with 0 by (field; assumption). apply cis_0.
  - exact Hj.
  - intros j' Hj' N. rewrite Csum_scal, root_sum by (first [assumption|intros [c Hc]; assert (c = 0 \/ c <> 0)%Z as [->|] by lia; [lia|nia]]).
    apply Cmult_0_r.
Qed.

(** * fft2 as an iterated transform *)
Definition rectC (n m : nat) (M : list (list C)) : Prop := length M = n /\ forall row, In row M -> length row = m.

Lemma fft2_at E n m q p : rectC n m E -> (0 < n)%nat -> (q < n)%nat -> (p < m)%nat ->
  at2 (fft2 E) q p = dft n (fun j => dft m (fun i => at2 E j i) p) q.
Proof.
  intros [Hn Hm] H0 Hq Hp. unfold fft2. assert (Ec : ncols E = m) by (destruct E as [|r E]; [cbn in *; lia|apply Hm; left; reflexivity]).
  rewrite Ec, Hn. unfold at2 at 1.
  rewrite nth_indep with (d' := (fun q => map (fun p => Csum n (fun j => Csum m (fun i => Cmult (at2 E j i) (cis (- (2 * PI * (INR q * INR j / INR n + INR p * INR i / INR m))))))) (seq 0 m)) 0%nat) by (rewrite map_length, seq_length; lia).
  rewrite map_nth with (f := fun q => map (fun p => Csum n (fun j => Csum m (fun i => Cmult (at2 E j i) (cis (- (2 * PI * (INR q * INR j / INR n + INR p * INR i / INR m))))))) (seq 0 m)). rewrite seq_nth by lia. cbn [Nat.add].
  rewrite nth_indep with (d' := (fun p => Csum n (fun j => Csum m (fun i => Cmult (at2 E j i) (cis (- (2 * PI * (INR q * INR j / INR n + INR p * INR i / INR m))))))) 0%nat) by (rewrite map_length, seq_length; lia).
  rewrite map_nth with (f := fun p => Csum n (fun j => Csum m (fun i => Cmult (at2 E j i) (cis (- (2 * PI * (INR q * INR j / INR n + INR p * INR i / INR m))))))). rewrite seq_nth by lia. cbn [Nat.add].
  unfold dft. apply Csum_ext. intros j Hj. rewrite <- Csum_scal_r. apply Csum_ext. intros i Hi.
  replace (- (2 * PI * (INR q * INR j / INR n + INR p * INR i / INR m))) with (- (2 * PI * (INR p * INR i / INR m)) + - (2 * PI * (INR q * INR j / INR n))) by ring.
  rewrite cis_plus. ring.
Qed.

Lemma fft2_rect E n m : rectC n m E -> (0 < n)%nat -> rectC n m (fft2 E).
Proof.
  intros [Hn Hm] H0. assert (Ec : ncols E = m) by (destruct E as [|r E]; [cbn in *; lia|apply Hm; left; reflexivity]).
  unfold fft2. rewrite Ec, Hn. split; [rewrite map_length, seq_length; reflexivity|].
  intros row H. apply in_map_iff in H as (q & <- & _). rewrite map_length, seq_length. reflexivity.
Qed.

(** Total of |.|^2 over an n x m array. *)
Definition total2 (n m : nat) (M : list (list C)) : R := Rsum n (fun j => Rsum m (fun i => Cmod (at2 M j i) ^ 2)).

Lemma fft2_parseval E n m : rectC n m E -> (0 < n)%nat -> (0 < m)%nat -> total2 n m (fft2 E) = INR n * INR m * total2 n m E.
Proof.
  intros H Hn Hm. unfold total2.
  rewrite (Rsum_ext n _ (fun q => Rsum m (fun p => Cmod (dft n (fun j => dft m (fun i => at2 E j i) p) q) ^ 2))).
  2:{ intros q Hq. apply Rsum_ext. intros p Hp. rewrite (fft2_at E n m) by assumption. reflexivity. }
  rewrite Rsum_swap. rewrite (Rsum_ext m _ (fun p => INR n * Rsum n (fun j => Cmod (dft m (fun i => at2 E j i) p) ^ 2))) by (intros; apply dft_parseval; assumption).
  rewrite Rsum_scal, Rsum_swap. rewrite (Rsum_ext n _ (fun j => INR m * Rsum m (fun i => Cmod (at2 E j i) ^ 2))) by (intros; apply dft_parseval; assumption).
  rewrite Rsum_scal. ring.
Qed.

(** * fftshift *)
Lemma nth_skipn {A} n (l : list A) i d : nth i (skipn n l) d = nth (n + i) l d.
Proof. revert l. induction n as [|n IH]; intros l; [reflexivity|]. destruct l as [|x l]; [destruct i; reflexivity|]. cbn. apply IH. Qed.
Lemma in_firstn {A} n (l : list A) x : In x (firstn n l) -> In x l.
Proof. intros H. rewrite <- (firstn_skipn n l). apply in_or_app. left. exact H. Qed.
Lemma fftshift_length {A} (l : list A) : length (fftshift l) = length l.
Proof. unfold fftshift. rewrite app_length, skipn_length, firstn_length. pose proof (Nat.div_le_upper_bound (length l) 2 (length l)). lia. Qed.

(** index of the sample that fftshift puts at position i *)
Definition shift_idx (n i : nat) : nat := if Nat.ltb i (n / 2) then i + (n - n / 2) else i - n / 2.

Lemma fftshift_nth {A} (l : list A) i d : (i < length l)%nat -> nth i (fftshift l) d = nth (shift_idx (length l) i) l d.
Proof.
  intros Hi. unfold fftshift, shift_idx. set (n := length l) in *. assert (n / 2 <= n)%nat by (apply Nat.div_le_upper_bound; lia).
  destruct (Nat.ltb_spec i (n / 2)).
  - rewrite app_nth1 by (rewrite skipn_length; fold n; lia). rewrite nth_skipn. f_equal. lia.
  - rewrite app_nth2 by (rewrite skipn_length; fold n; lia). rewrite skipn_length. fold n.
    replace (i - (n - (n - n / 2)))%nat with (i - n / 2)%nat by lia.
    rewrite <- (firstn_skipn (n - n / 2) l) at 2. rewrite app_nth1; [reflexivity|]. rewrite firstn_length. fold n. lia.
Qed.

Lemma shift_idx_lt n i : (i < n)%nat -> (shift_idx n i < n)%nat.
Proof. intros H. unfold shift_idx. assert (n / 2 <= n)%nat by (apply Nat.div_le_upper_bound; lia). destruct (Nat.ltb_spec i (n / 2)); lia. Qed.

Lemma Rsum_shift n f : Rsum n (fun i => f (shift_idx n i)) = Rsum n f.
Proof.
  assert (n / 2 <= n)%nat by (apply Nat.div_le_upper_bound; lia). set (h := (n / 2)%nat) in *.
  replace n with (h + (n - h))%nat at 1 by lia. rewrite Rsum_app.
  rewrite (Rsum_ext h _ (fun i => f (n - h + i)%nat)).
  2:{ intros i Hi. unfold shift_idx. fold h. destruct (Nat.ltb_spec i h); [f_equal; lia|lia]. }
  rewrite (Rsum_ext (n - h) _ f).
  2:{ intros i Hi. unfold shift_idx. fold h. destruct (Nat.ltb_spec (h + i) h); [lia|f_equal; lia]. }
  rewrite Rplus_comm. rewrite <- (Rsum_app (n - h) h f). f_equal. lia.
Qed.

Lemma fftshift2_at M n m j i : rectC n m M -> (j < n)%nat -> (i < m)%nat -> at2 (fftshift2 M) j i = at2 M (shift_idx n j) (shift_idx m i).
Proof.
  intros [Hn Hm] Hj Hi. unfold at2, fftshift2. rewrite fftshift_nth by (rewrite map_length; lia). rewrite map_length, Hn.
  change [] with (fftshift (@nil C)) at 1. rewrite map_nth. rewrite fftshift_nth.
  - rewrite (Hm (nth (shift_idx n j) M [])); [reflexivity|]. apply nth_In. rewrite Hn. apply shift_idx_lt; assumption.
  - rewrite (Hm (nth (shift_idx n j) M [])); [assumption|]. apply nth_In. rewrite Hn. apply shift_idx_lt; assumption.
Qed.

Lemma fftshift2_total M n m : rectC n m M -> total2 n m (fftshift2 M) = total2 n m M.
Proof.
  intros H. unfold total2. rewrite (Rsum_ext n _ (fun j => Rsum m (fun i => Cmod (at2 M (shift_idx n j) i) ^ 2))).
  - apply (Rsum_shift n (fun j => Rsum m (fun i => Cmod (at2 M j i) ^ 2))).
  - intros j Hj. rewrite <- (Rsum_shift m (fun i => Cmod (at2 M (shift_idx n j) i) ^ 2)). apply Rsum_ext. intros i Hi. rewrite (fftshift2_at M n m) by assumption. reflexivity.
Qed.

Lemma fftshift2_rect M n m : rectC n m M -> rectC n m (fftshift2 M).
Proof.
  intros [Hn Hm]. unfold fftshift2. split; [rewrite fftshift_length, map_length; assumption|].
  intros row H. unfold fftshift in H. rewrite in_app_iff in H.
  assert (In row (map (fftshift (A := C)) M)).
  { destruct H as [H|H]; [|exact (in_firstn _ _ _ H)]. rewrite <- (firstn_skipn (length (map (fftshift (A := C)) M) - length (map (fftshift (A := C)) M) / 2)). apply in_or_app. right. exact H. }
  apply in_map_iff in H0 as (r & <- & Hr). rewrite fftshift_length. apply Hm; assumption.
Qed.
