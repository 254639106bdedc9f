(** C30-C33, C61: the radiation pattern. *)
From Verif Require Import PyBase PyLib Sums Num MZernike PZernike SZernike MMath MAperture PPolar PWave PPhase PPhase2 PSym PZern2 PDisk MRad PAper PFft PIllum MTel PTel.
From Coquelicot Require Import Coquelicot.
Open Scope R_scope.

(** grid coordinate *)
Definition gx (box : R) (N i : nat) : R := - box + INR i * ((box - - box) / INR (N - 1)).

Definition sampled (E : R -> R -> C) (box : R) (N : nat) : list (list C) :=
  map2d (fun '(a, b) => E a b) (meshgrid (linspace (- box) box N) (linspace (- box) box N)).

Lemma sampled_rect E box N : rectC N N (sampled E box N).
Proof.
  unfold sampled, map2d, meshgrid. split; [rewrite !map_length, linspace_length; reflexivity|].
  intros row H. rewrite map_map in H. apply in_map_iff in H as (y & <- & _). rewrite !map_length, linspace_length. reflexivity.
Qed.

Lemma sampled_at E box N j i : (j < N)%nat -> (i < N)%nat -> at2 (sampled E box N) j i = E (gx box N i) (gx box N j).
Proof.
  intros Hj Hi. unfold at2, sampled, map2d, meshgrid. rewrite map_map.
  rewrite nth_indep with (d' := (fun yj => map (fun '(a, b) => E a b) (map (fun xi => (xi, yj)) (linspace (- box) box N))) 0) by (rewrite map_length, linspace_length; assumption).
  rewrite map_nth with (f := fun yj => map (fun '(a, b) => E a b) (map (fun xi => (xi, yj)) (linspace (- box) box N))).
  rewrite map_map.
  rewrite nth_indep with (d' := (fun xi => E xi (nth j (linspace (- box) box N) 0)) 0) by (rewrite map_length, linspace_length; assumption).
  rewrite map_nth with (f := fun xi => E xi (nth j (linspace (- box) box N) 0)). rewrite !linspace_nth by assumption. reflexivity.
Qed.

Lemma rad_unfold illum tel I K d_z wavel N bf : (2 <= N)%nat ->
  let box := tel_pr tel * bf in
  let axis := map (fun s => s * wavel) (fftshift (fftfreq N (gx box N 1 - gx box N 0))) in
  radiation_pattern illum tel I K d_z wavel N bf =
  bind (aperture illum tel I K d_z wavel) (fun E => Ok (axis, axis, fftshift2 (fft2 (sampled E box N)))).
Proof.
  intros HN box axis. unfold radiation_pattern. fold box.
  assert (G : forall i, (i < N)%nat -> py_get (linspace (- box) box N) i = Ok (gx box N i)).
  { intros i Hi. unfold py_get. rewrite nth_error_nth' with (d := 0) by (rewrite linspace_length; assumption).
    rewrite linspace_nth by assumption. reflexivity. }
  cbv zeta. rewrite !G by lia. cbn [bind]. rewrite linspace_length. reflexivity.
Qed.

Lemma rad_small illum tel I K d_z wavel N bf : (N < 2)%nat -> radiation_pattern illum tel I K d_z wavel N bf = Err IndexError.
Proof.
  intros HN. unfold radiation_pattern. cbv zeta. unfold py_get at 1.
  rewrite (proj2 (nth_error_None _ _)) by (rewrite linspace_length; lia). reflexivity.
Qed.

Lemma rad_inv illum tel I K d_z wavel N bf u v F : radiation_pattern illum tel I K d_z wavel N bf = Ok (u, v, F) ->
  (2 <= N)%nat /\ exists E, aperture illum tel I K d_z wavel = Ok E /\ F = fftshift2 (fft2 (sampled E (tel_pr tel * bf) N)) /\
  u = map (fun s => s * wavel) (fftshift (fftfreq N (gx (tel_pr tel * bf) N 1 - gx (tel_pr tel * bf) N 0))) /\ v = u.
Proof.
  intros H. destruct (le_lt_dec 2 N) as [HN|HN]; [|rewrite rad_small in H by assumption; discriminate].
  split; [exact HN|]. rewrite rad_unfold in H by assumption. cbv zeta in H.
  destruct (aperture illum tel I K d_z wavel) as [E|e]; [|discriminate]. cbn [bind] in H. apply Ok_inj in H.
  exists E. split; [reflexivity|]. repeat split; congruence.
Qed.

(** * C31: the axes *)
Lemma div2_ceil n : ((n - 1) / 2 + 1 = n - n / 2 \/ n = 0)%nat.
Proof.
  destruct (Nat.eq_dec n 0); [right; assumption|left].
  pose proof (Nat.div_mod n 2). pose proof (Nat.div_mod (n - 1) 2).
  pose proof (Nat.mod_upper_bound n 2). pose proof (Nat.mod_upper_bound (n - 1) 2). lia.
Qed.

Lemma fftfreq_length n d : (0 < n)%nat -> length (fftfreq n d) = n.
Proof.
  intros Hn. unfold fftfreq. rewrite map_length, app_length, !map_length, !seq_length.
  assert (n / 2 <= n)%nat by (apply Nat.div_le_upper_bound; lia). destruct (div2_ceil n); lia.
Qed.

Lemma fftfreq_shift_nth n d i : (i < n)%nat -> nth i (fftshift (fftfreq n d)) 0 = (INR i - INR (n / 2)) / (INR n * d).
Proof.
  intros Hi. rewrite fftshift_nth by (rewrite fftfreq_length; lia). rewrite fftfreq_length by lia.
  assert (Hh : (n / 2 <= n)%nat) by (apply Nat.div_le_upper_bound; lia). assert (Hc : ((n - 1) / 2 + 1 = n - n / 2)%nat) by (destruct (div2_ceil n); lia).
  unfold fftfreq.
  set (L := map Z.of_nat (seq 0 ((n - 1) / 2 + 1)) ++ map (fun i => (Z.of_nat i - Z.of_nat (n / 2))%Z) (seq 0 (n / 2))).
  assert (HL : length L = n) by (unfold L; rewrite app_length, !map_length, !seq_length; lia).
  rewrite nth_indep with (d' := (fun k => IZR k * (1 / (INR n * d))) 0%Z) by (rewrite map_length, HL; apply shift_idx_lt; assumption).
  rewrite map_nth with (f := fun k => IZR k * (1 / (INR n * d))).
  assert (EL : nth (shift_idx n i) L 0%Z = (Z.of_nat i - Z.of_nat (n / 2))%Z).
  { unfold L, shift_idx. destruct (Nat.ltb_spec i (n / 2)).
    - rewrite app_nth2 by (rewrite map_length, seq_length; lia). rewrite map_length, seq_length.
      replace (i + (n - n / 2) - ((n - 1) / 2 + 1))%nat with i by lia.
      rewrite nth_indep with (d' := (fun i => (Z.of_nat i - Z.of_nat (n / 2))%Z) 0%nat) by (rewrite map_length, seq_length; assumption).
      rewrite map_nth with (f := fun i => (Z.of_nat i - Z.of_nat (n / 2))%Z). rewrite seq_nth by assumption. reflexivity.
    - rewrite app_nth1 by (rewrite map_length, seq_length; lia).
      rewrite nth_indep with (d' := Z.of_nat 0%nat) by (rewrite map_length, seq_length; lia). rewrite map_nth, seq_nth by lia. lia. }
  rewrite EL, minus_IZR, <- !INR_IZR_INZ. unfold Rdiv. ring.
Qed.

Lemma axis_nth box wavel N i : (2 <= N)%nat -> (i < N)%nat -> box <> 0 ->
  nth i (map (fun s => s * wavel) (fftshift (fftfreq N (gx box N 1 - gx box N 0)))) 0 =
  (INR i - INR (N / 2)) * (wavel * (INR N - 1) / (2 * box * INR N)).
Proof.
  intros HN Hi Hb.
  assert (HN1 : INR (N - 1) = INR N - 1) by (rewrite minus_INR by lia; reflexivity).
  assert (1 < INR N) by (apply (lt_INR 1); lia).
  rewrite nth_indep with (d' := 0 * wavel) by (rewrite map_length, fftshift_length, fftfreq_length; lia).
  rewrite map_nth with (f := fun s => s * wavel). rewrite fftfreq_shift_nth by assumption.
  unfold gx. rewrite HN1. change (INR 1) with 1. change (INR 0) with 0. field. repeat split; lra.
Qed.

Lemma axes_api illum tel I K d_z wavel N bf u v F : 0 < wavel -> 0 < tel_pr tel -> 0 < bf ->
  radiation_pattern illum tel I K d_z wavel N bf = Ok (u, v, F) ->
  u = v /\ length u = N /\ length F = N /\ (forall row, In row F -> length row = N) /\ (N / 2 < N)%nat /\
  let step := wavel * (INR N - 1) / (2 * (bf * tel_pr tel) * INR N) in
  0 < step /\ (forall i, (i < N)%nat -> nth i u 0 = (INR i - INR (N / 2)) * step) /\
  nth (N / 2) u 0 = 0 /\ (forall i j, (i < j < N)%nat -> nth i u 0 < nth j u 0).
Proof.
  intros Hw Hp Hb H. destruct (rad_inv _ _ _ _ _ _ _ _ _ _ _ H) as (HN & E & HE & EF & Eu & Ev). subst v.
  assert (Hbox : 0 < tel_pr tel * bf) by (apply Rmult_lt_0_compat; assumption).
  assert (HN2 : (N / 2 < N)%nat) by (apply Nat.div_lt_upper_bound; lia).
  assert (1 < INR N) by (apply (lt_INR 1); lia).
  split; [reflexivity|]. split; [rewrite Eu, map_length, fftshift_length, fftfreq_length; lia|].
  destruct (fftshift2_rect (fft2 (sampled E (tel_pr tel * bf) N)) N N) as [R1 R2]; [apply fft2_rect; [apply sampled_rect|lia]|].
  split; [rewrite EF; exact R1|]. split; [rewrite EF; exact R2|]. split; [exact HN2|]. cbv zeta.
  assert (Hst : 0 < wavel * (INR N - 1) / (2 * (bf * tel_pr tel) * INR N)).
  { apply Rdiv_lt_0_compat; [apply Rmult_lt_0_compat; lra|]. apply Rmult_lt_0_compat; [|lra]. nra. }
  assert (Hi : forall i, (i < N)%nat -> nth i u 0 = (INR i - INR (N / 2)) * (wavel * (INR N - 1) / (2 * (bf * tel_pr tel) * INR N))).
  { intros i Hi. rewrite Eu, axis_nth by (first [assumption|lra]). rewrite (Rmult_comm bf). reflexivity. }
  split; [exact Hst|]. split; [exact Hi|]. split; [rewrite Hi by assumption; ring|].
  intros i j Hij. rewrite !Hi by lia. apply Rmult_lt_compat_r; [exact Hst|]. assert (INR i < INR j) by (apply lt_INR; lia). lra.
Qed.

(** * The centred transform *)
Definition centred (E : R -> R -> C) (box : R) (N : nat) (q p : Z) : C :=
  Csum N (fun a => Csum N (fun b =>
    Cmult (E (gx box N b) (gx box N a)) (cis (- (2 * PI * ((IZR q * INR a + IZR p * INR b) / INR N)))))).

Lemma shift_idx_cong n i : (i < n)%nat -> exists c : Z, (Z.of_nat (shift_idx n i) = Z.of_nat i - Z.of_nat (n / 2) + c * Z.of_nat n)%Z.
Proof.
  intros Hi. unfold shift_idx. assert (n / 2 <= n)%nat by (apply Nat.div_le_upper_bound; lia). destruct (Nat.ltb_spec i (n / 2)).
  - exists 1%Z. lia.
  - exists 0%Z. lia.
Qed.

Lemma rad_sample E box N j i : (2 <= N)%nat -> (j < N)%nat -> (i < N)%nat ->
  at2 (fftshift2 (fft2 (sampled E box N))) j i = centred E box N (Z.of_nat j - Z.of_nat (N / 2)) (Z.of_nat i - Z.of_nat (N / 2)).
Proof.
  intros HN Hj Hi. assert (HN0 : INR N <> 0) by (apply not_0_INR; lia).
  rewrite (fftshift2_at _ N N) by (first [assumption|apply fft2_rect; [apply sampled_rect|lia]]).
  rewrite (fft2_at _ N N) by (first [apply sampled_rect|lia|apply shift_idx_lt; assumption]).
  unfold dft, centred. apply Csum_ext. intros a Ha. rewrite <- Csum_scal_r. apply Csum_ext. intros b Hb.
  rewrite sampled_at by assumption. rewrite <- Cmult_assoc, <- cis_plus. f_equal.
  destruct (shift_idx_cong N j Hj) as [c Hc]. destruct (shift_idx_cong N i Hi) as [d Hd].
  rewrite !(INR_IZR_INZ (shift_idx _ _)), Hc, Hd.
  rewrite <- (cis_period _ (d * Z.of_nat b + c * Z.of_nat a)). f_equal.
  rewrite !plus_IZR, !mult_IZR, !minus_IZR, <- !INR_IZR_INZ. field. assumption.
Qed.

(** * C30 *)
Lemma parseval_api illum tel I K d_z wavel N bf u v F : radiation_pattern illum tel I K d_z wavel N bf = Ok (u, v, F) ->
  exists E, aperture illum tel I K d_z wavel = Ok E /\
  let x i := nth i (linspace (- (tel_pr tel * bf)) (tel_pr tel * bf) N) 0 in
  Rsum N (fun j => Rsum N (fun i => Cmod (at2 F j i) ^ 2)) = INR N ^ 2 * Rsum N (fun j => Rsum N (fun i => Cmod (E (x i) (x j)) ^ 2)) /\
  at2 F (N / 2) (N / 2) = Csum N (fun j => Csum N (fun i => E (x i) (x j))) /\
  (forall j i, (j < N)%nat -> (i < N)%nat -> Cmod (at2 F j i) <= Rsum N (fun j => Rsum N (fun i => Cmod (E (x i) (x j))))).
Proof.
  intros H. destruct (rad_inv _ _ _ _ _ _ _ _ _ _ _ H) as (HN & E & HE & EF & _). exists E. split; [exact HE|]. cbv zeta.
  set (box := tel_pr tel * bf) in *. assert (HN2 : (N / 2 < N)%nat) by (apply Nat.div_lt_upper_bound; lia).
  assert (Hx : forall i, (i < N)%nat -> nth i (linspace (- box) box N) 0 = gx box N i) by (intros; apply linspace_nth; assumption).
  split; [|split].
  - subst F. pose proof (fftshift2_total (fft2 (sampled E box N)) N N ltac:(apply fft2_rect; [apply sampled_rect|lia])) as T.
    rewrite (fft2_parseval _ N N) in T by (first [apply sampled_rect|lia]). unfold total2 in T. rewrite T.
    replace (INR N ^ 2) with (INR N * INR N) by ring. f_equal. apply Rsum_ext. intros j Hj. apply Rsum_ext. intros i Hi.
    rewrite sampled_at by assumption. rewrite !Hx by assumption. reflexivity.
  - subst F. rewrite rad_sample by assumption. rewrite Z.sub_diag. unfold centred. apply Csum_ext. intros a Ha. apply Csum_ext. intros b Hb.
    rewrite !Hx by assumption. replace (- (2 * PI * ((0 * INR a + 0 * INR b) / INR N))) with 0 by (unfold Rdiv; ring). rewrite cis_0. apply Cmult_1_r.
  - intros j i Hj Hi. subst F. rewrite rad_sample by assumption. unfold centred.
    eapply Rle_trans; [apply Cmod_Csum|]. apply Rsum_le. intros a Ha. eapply Rle_trans; [apply Cmod_Csum|]. apply Rsum_le. intros b Hb.
    rewrite Cmod_mult, cis_mod, !Hx by assumption. lra.
Qed.

Lemma power_conserved illum tel I K d_z wavel K' d_z' wavel' N bf u v F u' v' F' :
  radiation_pattern illum tel I K d_z wavel N bf = Ok (u, v, F) -> radiation_pattern illum tel I K' d_z' wavel' N bf = Ok (u', v', F') ->
  Rsum N (fun j => Rsum N (fun i => Cmod (at2 F j i) ^ 2)) = Rsum N (fun j => Rsum N (fun i => Cmod (at2 F' j i) ^ 2)).
Proof.
  intros H H'. destruct (parseval_api _ _ _ _ _ _ _ _ _ _ _ H) as (E & HE & P & _). destruct (parseval_api _ _ _ _ _ _ _ _ _ _ _ H') as (E' & HE' & P' & _).
  cbv zeta in P, P'. rewrite P, P'. f_equal. apply Rsum_ext. intros j Hj. apply Rsum_ext. intros i Hi. f_equal.
  destruct (aperture_modulus _ _ _ _ _ _ _ HE) as (Ea & EI & M). destruct (aperture_modulus _ _ _ _ _ _ _ HE') as (Ea' & EI' & M').
  rewrite EI in EI'. apply Ok_inj in EI'. subst Ea'. rewrite (proj1 (M _ _)), (proj1 (M' _ _)). reflexivity.
Qed.

(** * Arrays equal up to a function of the samples *)
Lemma rect_ext {A} (f g : C -> A) n m P Q : rectC n m P -> rectC n m Q ->
  (forall j i, (j < n)%nat -> (i < m)%nat -> f (at2 P j i) = g (at2 Q j i)) -> map2d f P = map2d g Q.
Proof.
  intros [HP1 HP2] [HQ1 HQ2] H. unfold map2d. apply nth_ext with (d := map f []) (d' := map g []); [rewrite !map_length; congruence|].
  intros j Hj. rewrite map_length in Hj. rewrite !map_nth.
  assert (L1 : length (nth j P []) = m) by (apply HP2, nth_In; assumption). assert (L2 : length (nth j Q []) = m) by (apply HQ2, nth_In; lia).
  apply nth_ext with (d := f (RtoC 0)) (d' := g (RtoC 0)); [rewrite !map_length; congruence|].
  intros i Hi. rewrite map_length in Hi. rewrite !map_nth. apply (H j i); lia.
Qed.

Lemma power_ext E E' box N g : (2 <= N)%nat ->
  (forall q p, Cmod (centred E' box N q p) ^ 2 = g * Cmod (centred E box N q p) ^ 2) ->
  power_pattern (fftshift2 (fft2 (sampled E' box N))) = map2d (Rmult g) (power_pattern (fftshift2 (fft2 (sampled E box N)))).
Proof.
  intros HN H. unfold power_pattern. unfold map2d at 2 3. rewrite map_map.
  rewrite (map_ext _ (map (fun z => g * Cmod z ^ 2))) by (intros; rewrite map_map; reflexivity).
  apply (rect_ext (fun z => Cmod z ^ 2) (fun z => g * Cmod z ^ 2) N N); try (apply fftshift2_rect, fft2_rect; [apply sampled_rect|lia]).
  intros j i Hj Hi. rewrite !rad_sample by assumption. apply H.
Qed.

Lemma centred_scale E E' c box N q p : (forall x y, E' x y = Cmult c (E x y)) -> centred E' box N q p = Cmult c (centred E box N q p).
Proof.
  intros H. unfold centred. rewrite <- Csum_scal. apply Csum_ext. intros a Ha. rewrite <- Csum_scal. apply Csum_ext. intros b Hb. rewrite H. ring.
Qed.

(** * C32 *)
Lemma map2d_1 (M : list (list R)) : map2d (Rmult 1) M = M.
Proof.
  unfold map2d. rewrite <- (map_id M) at 2. apply map_ext. intros r. rewrite <- (map_id r) at 2. apply map_ext. intros. ring.
Qed.

Lemma power_piston illum tel I k k' K d_z wavel N bf u v F u' v' F' :
  radiation_pattern illum tel I (k :: K) d_z wavel N bf = Ok (u, v, F) -> radiation_pattern illum tel I (k' :: K) d_z wavel N bf = Ok (u', v', F') ->
  u' = u /\ v' = v /\ power_pattern F' = power_pattern F.
Proof.
  intros H H'. destruct (rad_inv _ _ _ _ _ _ _ _ _ _ _ H) as (HN & E & HE & EF & Eu & Ev). destruct (rad_inv _ _ _ _ _ _ _ _ _ _ _ H') as (_ & E' & HE' & EF' & Eu' & Ev').
  split; [congruence|]. split; [congruence|]. subst F F'.
  rewrite (power_ext E E' _ N 1 HN), map2d_1; [reflexivity|]. intros q p.
  rewrite (centred_scale E E' (cis (2 * PI * (k' - k))) _ _ q p (aperture_piston _ _ _ _ _ _ _ _ _ _ HE HE')).
  rewrite Cmod_mult, cis_mod. ring.
Qed.

Lemma power_gain illum tel I I' K d_z wavel N bf u v F Ea Ea' g :
  illum I (tel_pr tel) = Ok Ea -> illum I' (tel_pr tel) = Ok Ea' -> (forall x y, Ea' x y = g * Ea x y) ->
  radiation_pattern illum tel I K d_z wavel N bf = Ok (u, v, F) ->
  exists F', radiation_pattern illum tel I' K d_z wavel N bf = Ok (u, v, F') /\ power_pattern F' = map2d (Rmult (g ^ 2)) (power_pattern F).
Proof.
  intros HI HI' HE H. destruct (rad_inv _ _ _ _ _ _ _ _ _ _ _ H) as (HN & E & HA & EF & Eu & Ev).
  destruct (aperture_value _ _ _ _ _ _ _ HA) as (Ea1 & W & EI & EW & V). rewrite HI in EI. apply Ok_inj in EI. subst Ea1.
  assert (exists E', aperture illum tel I' K d_z wavel = Ok E') as [E' HA'] by (unfold aperture; cbv zeta; rewrite EW, HI'; cbn [bind]; eexists; reflexivity).
  destruct (aperture_value _ _ _ _ _ _ _ HA') as (Ea2 & W' & EI' & EW' & V'). rewrite HI' in EI'. apply Ok_inj in EI'. subst Ea2.
  rewrite EW in EW'. apply Ok_inj in EW'. subst W'.
  rewrite rad_unfold by assumption. cbv zeta. rewrite HA'. cbn [bind]. eexists. split; [rewrite Ev, Eu; reflexivity|]. subst F.
  apply power_ext; [assumption|]. intros q p.
  rewrite (centred_scale E E' (RtoC g) _ _ q p).
  - rewrite Cmod_mult, Cmod_R, Rpow_mult_distr. f_equal. apply pow2_abs.
  - intros x y. rewrite V, V', HE, Cmult_assoc. f_equal. unfold RtoC, Cmult. cbn. f_equal; ring.
Qed.

Lemma power_gain_parabolic tel g i_amp c_dB q x0 y0 K d_z wavel N bf u v F : 0 < tel_pr tel -> 0 < q ->
  radiation_pattern illum_parabolic tel [i_amp; c_dB; q; x0; y0] K d_z wavel N bf = Ok (u, v, F) ->
  exists F', radiation_pattern illum_parabolic tel [g * i_amp; c_dB; q; x0; y0] K d_z wavel N bf = Ok (u, v, F') /\ power_pattern F' = map2d (Rmult (g ^ 2)) (power_pattern F).
Proof.
  intros Hp Hq H. assert (exists Ea, illum_parabolic [i_amp; c_dB; q; x0; y0] (tel_pr tel) = Ok Ea) as [Ea EI] by (eexists; reflexivity).
  destruct (par_gain g i_amp c_dB q x0 y0 (tel_pr tel) Ea Hp Hq EI) as (Ea' & EI' & HE).
  exact (power_gain illum_parabolic tel _ _ K d_z wavel N bf u v F Ea Ea' g EI EI' HE H).
Qed.

Lemma power_gain_gauss tel g i_amp c_dB x0 y0 K d_z wavel N bf u v F :
  radiation_pattern illum_gauss tel [i_amp; c_dB; x0; y0] K d_z wavel N bf = Ok (u, v, F) ->
  exists F', radiation_pattern illum_gauss tel [g * i_amp; c_dB; x0; y0] K d_z wavel N bf = Ok (u, v, F') /\ power_pattern F' = map2d (Rmult (g ^ 2)) (power_pattern F).
Proof.
  intros H. assert (exists Ea, illum_gauss [i_amp; c_dB; x0; y0] (tel_pr tel) = Ok Ea) as [Ea EI] by (eexists; reflexivity).
  destruct (gauss_gain g i_amp c_dB x0 y0 (tel_pr tel) Ea EI) as (Ea' & EI' & HE).
  exact (power_gain illum_gauss tel _ _ K d_z wavel N bf u v F Ea Ea' g EI EI' HE H).
Qed.

(** * C33: defocus sign ambiguity *)
Lemma circle_antipode i l rho t : admissible (Z.of_nat i) l -> circle i l rho (t + PI) = (-1) ^ i * circle i l rho t.
Proof.
  intros [Hl [k Hk]]. unfold circle. fold (ang l (t + PI)). fold (ang l t). rewrite ang_pi.
  replace ((-1) ^ i) with ((-1) ^ Z.to_nat (Z.abs l)); [ring|].
  set (m := Z.to_nat (Z.abs l)). assert (exists c, i = (m + 2 * c)%nat) as [c ->].
  { exists (Z.to_nat ((Z.of_nat i - Z.abs l) / 2)).
    assert (E : exists c, (Z.of_nat i - Z.abs l = c * 2)%Z).
    { destruct (Z.abs_spec l) as [[_ ->]|[_ ->]]; [exists k; lia|exists (k + l)%Z; lia]. }
    destruct E as [c Hc]. rewrite Hc, Z.div_mul by lia. unfold m. lia. }
  rewrite pow_add, pow_mult. replace ((-1) ^ 2) with 1 by ring. rewrite pow1. ring.
Qed.

Lemma sum_upto_scal n c f : sum_upto n (fun i => c * f i) = c * sum_upto n f.
Proof. induction n as [|n IH]; cbn [sum_upto]; [reflexivity|]. rewrite IH. ring. Qed.

Lemma series_antipode n (c c' : nat -> Z -> R) rho t :
  (forall i l, (i <= n)%nat -> admissible (Z.of_nat i) l -> c' i l = (-1) ^ (S i) * c i l) ->
  zernike_series n c' rho t = - zernike_series n c rho (t + PI).
Proof.
  intros H. unfold zernike_series. rewrite <- (Rmult_1_l (sum_upto n (fun i => sum_upto i (fun k => _)))) at 1.
  replace 1 with (- (-1)) by ring. rewrite <- Ropp_mult_distr_l. f_equal. rewrite <- sum_upto_scal.
  apply sum_upto_ext. intros i Hi. rewrite <- sum_upto_scal. apply sum_upto_ext. intros k Hk. cbv zeta.
  assert (Ha : admissible (Z.of_nat i) (2 * Z.of_nat k - Z.of_nat i)) by (apply admissible_row; lia).
  rewrite H by assumption. rewrite circle_antipode by assumption. cbn [pow]. ring.
Qed.

Lemma antipode_polar x y : let r := sqrt (x ^ 2 + y ^ 2) in r <> 0 ->
  cos (arctan2 (- y) (- x)) = cos (arctan2 y x + PI) /\ sin (arctan2 (- y) (- x)) = sin (arctan2 y x + PI).
Proof.
  intros r Hr. rewrite neg_cos, neg_sin. pose proof (cart2pol_cos x y) as C1. pose proof (cart2pol_sin x y) as S1.
  pose proof (cart2pol_cos (- x) (- y)) as C2. pose proof (cart2pol_sin (- x) (- y)) as S2.
  replace ((- x) ^ 2 + (- y) ^ 2) with (x ^ 2 + y ^ 2) in C2, S2 by ring. fold r in C1, S1, C2, S2.
  split; apply Rmult_eq_reg_l with r; try assumption; lra.
Qed.

Lemma aperture_antipode illum tel I K K' n d_z wavel E E' : (2 * length K = (n + 1) * (n + 2))%nat -> length K' = length K ->
  (forall i l, (i <= n)%nat -> admissible (Z.of_nat i) l -> coeff_of K' i l = (-1) ^ (S i) * coeff_of K i l) ->
  (forall x y, block_dist tel (- x) (- y) = block_dist tel x y) ->
  (forall x y d, opd_func tel (- x) (- y) (- d) = - opd_func tel x y d) ->
  (forall Ea, illum I (tel_pr tel) = Ok Ea -> forall x y, Ea (- x) (- y) = Ea x y) ->
  aperture illum tel I K d_z wavel = Ok E -> aperture illum tel I K' (- d_z) wavel = Ok E' ->
  forall x y, E' x y = Cconj (E (- x) (- y)).
Proof.
  intros HK HL HC HB HO HS H H' x y.
  destruct (illum I (tel_pr tel)) as [Ea|e] eqn:EI.
  2:{ exfalso. unfold aperture in H. cbv zeta in H. rewrite EI in H. destruct (wavefront K); discriminate. }
  destruct (aperture_ok illum tel I K d_z wavel n Ea HK EI) as (E1 & H1 & V1). rewrite H in H1. apply Ok_inj in H1. subst E1.
  destruct (aperture_ok illum tel I K' (- d_z) wavel n Ea ltac:(lia) EI) as (E2 & H2 & V2). rewrite H' in H2. apply Ok_inj in H2. subst E2.
  rewrite V1, V2, Cmult_conj, cis_conj, HB, (HS Ea eq_refl).
  replace (Cconj (RtoC (block_dist tel x y * Ea x y))) with (RtoC (block_dist tel x y * Ea x y)) by (unfold Cconj, RtoC; cbn; f_equal; ring).
  f_equal. f_equal. rewrite (series_antipode n (coeff_of K) (coeff_of K') _ _ HC).
  replace ((- x) ^ 2 + (- y) ^ 2) with (x ^ 2 + y ^ 2) by ring.
  rewrite (series_polar n (coeff_of K) (sqrt (x ^ 2 + y ^ 2) / tel_pr tel) (arctan2 (- y) (- x)) (arctan2 y x + PI)).
  - rewrite <- (Ropp_involutive (opd_func tel (- x) (- y) d_z)). rewrite <- (Ropp_involutive d_z) at 2. rewrite HO. unfold Rdiv. ring.
  - intros Hr. apply antipode_polar. intros E0. apply Hr. rewrite E0. unfold Rdiv. ring.
Qed.

Lemma gx_neg box N i : (2 <= N)%nat -> (i < N)%nat -> gx box N (N - 1 - i) = - gx box N i.
Proof.
  intros HN Hi. unfold gx. assert (INR (N - 1) <> 0) by (apply not_0_INR; lia). rewrite minus_INR by lia. field. assumption.
Qed.

Lemma centred_antipode E E' box N q p : (2 <= N)%nat -> (forall x y, E' x y = Cconj (E (- x) (- y))) ->
  Cmod (centred E' box N q p) = Cmod (centred E box N q p).
Proof.
  intros HN H. assert (HN0 : INR N <> 0) by (apply not_0_INR; lia).
  assert (E1 : centred E' box N q p = Cmult (cis (- (2 * PI * ((IZR q + IZR p) * INR (N - 1) / INR N)))) (Cconj (centred E box N q p))).
  { unfold centred. rewrite Csum_rev. rewrite Csum_conj, <- Csum_scal. apply Csum_ext. intros a Ha. rewrite Csum_rev, Csum_conj, <- Csum_scal.
    apply Csum_ext. intros b Hb. rewrite H, Cmult_conj, cis_conj.
    rewrite (gx_neg box N a), (gx_neg box N b), !Ropp_involutive by assumption.
    rewrite Cmult_assoc, (Cmult_comm (cis _) (Cconj _)), <- Cmult_assoc. f_equal. rewrite <- cis_plus. f_equal.
    rewrite !(minus_INR (N - 1)) by lia. field. assumption. }
  rewrite E1, Cmod_mult, cis_mod, Rmult_1_l. unfold Cmod, Cconj. cbn [fst snd]. f_equal. ring.
Qed.

Lemma power_ambiguity illum tel I K K' n d_z wavel N bf u v F u' v' F' : (2 * length K = (n + 1) * (n + 2))%nat -> length K' = length K ->
  (forall i l, (i <= n)%nat -> admissible (Z.of_nat i) l -> coeff_of K' i l = (-1) ^ (S i) * coeff_of K i l) ->
  (forall x y, block_dist tel (- x) (- y) = block_dist tel x y) ->
  (forall x y d, opd_func tel (- x) (- y) (- d) = - opd_func tel x y d) ->
  (forall Ea, illum I (tel_pr tel) = Ok Ea -> forall x y, Ea (- x) (- y) = Ea x y) ->
  radiation_pattern illum tel I K d_z wavel N bf = Ok (u, v, F) -> radiation_pattern illum tel I K' (- d_z) wavel N bf = Ok (u', v', F') ->
  power_pattern F' = power_pattern F.
Proof.
  intros HK HL HC HB HO HS H H'.
  destruct (rad_inv _ _ _ _ _ _ _ _ _ _ _ H) as (HN & E & HE & EF & _). destruct (rad_inv _ _ _ _ _ _ _ _ _ _ _ H') as (_ & E' & HE' & EF' & _).
  subst F F'. rewrite (power_ext E E' _ N 1 HN), map2d_1; [reflexivity|]. intros q p.
  rewrite (centred_antipode E E' _ N q p HN); [ring|]. apply (aperture_antipode illum tel I K K' n d_z wavel); assumption.
Qed.

(** * C61: tilt shifts the beam *)
Lemma series_tilt_list n k0 k1 k2 k1' k2' K rho t : (1 <= n)%nat ->
  zernike_series n (coeff_of (k0 :: k1' :: k2' :: K)) rho t =
  zernike_series n (coeff_of (k0 :: k1 :: k2 :: K)) rho t + (k1' - k1) * (rho * sin t) + (k2' - k2) * (rho * cos t).
Proof.
  intros Hn. set (c := coeff_of (k0 :: k1 :: k2 :: K)).
  set (c' := fun (i : nat) l => match i with O => c i l | S O => coeff_of (k0 :: k1' :: k2' :: K) i l | _ => c i l end).
  rewrite (series_ext n (coeff_of (k0 :: k1' :: k2' :: K)) c').
  - pose proof (series_diff n c' c rho t Hn) as D. rewrite !series_1 in D.
    assert (D2 : forall i l, (2 <= i)%nat -> c' i l = c i l) by (intros i l Hi; unfold c'; destruct i as [|[|i]]; [lia|lia|reflexivity]).
    specialize (D D2). unfold c' in D at 2 3 4. unfold c in D at 3 4 5. unfold coeff_of in D.
    change (coeff_pos 1 (-1)) with 1%nat in D. change (coeff_pos 1 1) with 2%nat in D. change (coeff_pos 0 0) with 0%nat in D. cbn [nth] in D.
    unfold c in D at 2. unfold coeff_of in D at 1. change (coeff_pos 0 0) with 0%nat in D. cbn [nth] in D. lra.
  - intros i l Hi Ha. unfold c'. destruct i as [|[|i]]; [|reflexivity|].
    + destruct Ha as [Hl _]. change (Z.of_nat 0) with 0%Z in Hl. assert (l = 0%Z) by lia. subst l. reflexivity.
    + unfold c, coeff_of. assert (H3 : (3 <= coeff_pos (S (S i)) l)%nat).
      { destruct Ha as [Hl [k Hk]]. unfold coeff_pos. assert (3 <= (Z.of_nat (S (S i)) * (Z.of_nat (S (S i)) + 2) + l) / 2)%Z; [|lia]. apply Z.div_le_lower_bound; nia. }
      destruct (coeff_pos (S (S i)) l) as [|[|[|p]]]; [lia|lia|lia|]. reflexivity.
Qed.

Lemma power_tilt illum tel I k0 k1 k2 K a b n d_z wavel N bf u v F u' v' F' :
  0 < tel_pr tel -> 0 < bf ->
  (2 * length (k0 :: k1 :: k2 :: K) = (n + 1) * (n + 2))%nat ->
  let bin := (INR N - 1) / (2 * bf * INR N) in
  radiation_pattern illum tel I (k0 :: k1 :: k2 :: K) d_z wavel N bf = Ok (u, v, F) ->
  radiation_pattern illum tel I (k0 :: (k1 + INR b * bin) :: (k2 + INR a * bin) :: K) d_z wavel N bf = Ok (u', v', F') ->
  forall j i, (j + b < N)%nat -> (i + a < N)%nat -> Cmod (at2 F' (j + b) (i + a)) = Cmod (at2 F j i).
Proof.
  intros Hp Hb HK bin H H' j i Hj Hi.
  destruct (rad_inv _ _ _ _ _ _ _ _ _ _ _ H) as (HN & E & HE & EF & _). destruct (rad_inv _ _ _ _ _ _ _ _ _ _ _ H') as (_ & E' & HE' & EF' & _).
  assert (Hn : (1 <= n)%nat) by (destruct n; [cbn in HK; lia|lia]).
  destruct (aperture_value _ _ _ _ _ _ _ HE) as (Ea & W & EI & EW & V). destruct (aperture_value _ _ _ _ _ _ _ HE') as (Ea' & W' & EI' & EW' & V').
  rewrite EI in EI'. apply Ok_inj in EI'. subst Ea'.
  destruct (wavefront_series _ n HK) as (W1 & E1 & V1). rewrite EW in E1. apply Ok_inj in E1. subst W1.
  destruct (wavefront_series (k0 :: (k1 + INR b * bin) :: (k2 + INR a * bin) :: K) n HK) as (W2 & E2 & V2). rewrite EW' in E2. apply Ok_inj in E2. subst W2.
  assert (D : forall x y, E' x y = Cmult (cis (2 * PI * (bin / tel_pr tel * (INR b * y + INR a * x)))) (E x y)).
  { intros x y. rewrite V, V', V1, V2. fold (coeff_of (k0 :: (k1 + INR b * bin) :: (k2 + INR a * bin) :: K)). fold (coeff_of (k0 :: k1 :: k2 :: K)).
    rewrite (series_tilt_list n k0 k1 k2 (k1 + INR b * bin) (k2 + INR a * bin) K) by assumption.
    rewrite Cmult_assoc, (Cmult_comm (cis _) (RtoC _)), <- Cmult_assoc. f_equal. rewrite <- cis_plus. f_equal.
    pose proof (cart2pol_cos x y) as C1. pose proof (cart2pol_sin x y) as S1.
    replace (INR b * y + INR a * x) with (INR b * (sqrt (x ^ 2 + y ^ 2) * sin (arctan2 y x)) + INR a * (sqrt (x ^ 2 + y ^ 2) * cos (arctan2 y x))) by (rewrite S1, C1; reflexivity).
    clear C1 S1. generalize (sqrt (x ^ 2 + y ^ 2)) (arctan2 y x) (opd_func tel x y d_z / wavel). intros r t o. unfold Rdiv. ring. }
  assert (HN0 : INR N <> 0) by (apply not_0_INR; lia). assert (HN1 : INR N - 1 <> 0) by (assert (1 < INR N) by (apply (lt_INR 1); lia); lra).
  subst F F'. rewrite !rad_sample by lia.
  set (box := tel_pr tel * bf) in *.
  replace (centred E' box N (Z.of_nat (j + b) - Z.of_nat (N / 2)) (Z.of_nat (i + a) - Z.of_nat (N / 2)))
    with (Cmult (cis (2 * PI * (- (bin * bf) * (INR a + INR b)))) (centred E box N (Z.of_nat j - Z.of_nat (N / 2)) (Z.of_nat i - Z.of_nat (N / 2)))).
  - rewrite Cmod_mult, cis_mod. lra.
  - unfold centred. rewrite <- Csum_scal. apply Csum_ext. intros s Hs. rewrite <- Csum_scal. apply Csum_ext. intros r Hr. rewrite D.
    rewrite !Cmult_assoc. rewrite (Cmult_comm (cis (2 * PI * (- (bin * bf) * (INR a + INR b))))), (Cmult_comm (cis (2 * PI * (bin / _ * _)))). rewrite <- !Cmult_assoc. f_equal.
    rewrite <- !cis_plus. f_equal. rewrite !minus_IZR, <- !INR_IZR_INZ, !plus_INR. unfold gx, bin, box. rewrite minus_INR by lia. change (INR 1) with 1. field. repeat split; lra.
Qed.

Lemma power_ambiguity_manual pr sr a L Fp Fo i_amp c_dB q K K' n d_z wavel N bf u v F u' v' F' :
  let tel := {| block_dist := block_manual pr sr a L; opd_func := opd_manual Fp Fo; tel_pr := pr |} in
  let I := [i_amp; c_dB; q; 0; 0] in
  (2 * length K = (n + 1) * (n + 2))%nat -> length K' = length K ->
  (forall i l, (i <= n)%nat -> admissible (Z.of_nat i) l -> coeff_of K' i l = (-1) ^ (S i) * coeff_of K i l) ->
  radiation_pattern illum_parabolic tel I K d_z wavel N bf = Ok (u, v, F) -> radiation_pattern illum_parabolic tel I K' (- d_z) wavel N bf = Ok (u', v', F') ->
  power_pattern F' = power_pattern F.
Proof.
  intros tel I HK HL HC. apply (power_ambiguity illum_parabolic tel I K K' n d_z wavel N bf u v F u' v' F' HK HL HC).
  - intros x y. cbn. rewrite (proj1 (block_manual_sym pr sr a L x (- y))). apply (block_manual_sym pr sr a L x y).
  - intros x y d. cbn. unfold opd_manual. cbv zeta. replace ((- x) ^ 2 + (- y) ^ 2) with (x ^ 2 + y ^ 2) by ring. ring.
  - intros Ea E x y. unfold illum_parabolic, I in E. apply Ok_inj in E. subst Ea. cbv zeta.
    replace ((- x - 0) ^ 2 + (- y - 0) ^ 2) with ((x - 0) ^ 2 + (y - 0) ^ 2) by ring. reflexivity.
Qed.
