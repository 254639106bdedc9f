(** Fits under another sign or axis convention. *)
From Coq Require Import List ZArith Lia Lra Bool String Sorted.
From Verif Require Import PyBase PyLib Sums Num MMath MAperture MTel MRad MCore MFs MOut SMath SZernike SRad STel SCore SMirror SOut SFit SBest SRecover SConv PIllum PTel PAper PFft PRad PRad2 PPhase PFar PMirror PResid PWave PGrid PFit PFit6 PBest PPlot4 PCov2 PRecover PRecover3 PAct3 PConv.
Import ListNotations.
Open Scope R_scope.
Open Scope list_scope.

(** * Which telescopes and illuminations *)
Lemma symmetric_of g tel : (forall x y, block_dist tel (- x) y = block_dist tel x y /\ block_dist tel x (- y) = block_dist tel x y /\ block_dist tel y x = block_dist tel x y) ->
  (forall x y d, opd_func tel x y d = opd_func tel (sqrt (x ^ 2 + y ^ 2)) 0 d /\ opd_func tel x y (- d) = - opd_func tel x y d) -> symmetric g tel.
Proof.
  intros B O x y d. assert (OO : forall a b, a ^ 2 + b ^ 2 = x ^ 2 + y ^ 2 -> opd_func tel a b d = opd_func tel x y d).
  { intros a b H. rewrite (proj1 (O a b d)), (proj1 (O x y d)), H. reflexivity. }
  destruct (B x y) as (B1 & B2 & B3). destruct g; cbn [moved fst snd].
  - split; [exact B1|]. apply OO. ring.
  - split; [exact B2|]. apply OO. ring.
  - split; [exact B3|]. apply OO. ring.
  - split; [rewrite (proj1 (B x (- y))); exact B2|]. rewrite (proj2 (O (- x) (- y) d)). f_equal. apply OO. ring.
Qed.
Lemma opd_even Fp Ff x y d : opd_manual Fp Ff x y d = opd_manual Fp Ff (sqrt (x ^ 2 + y ^ 2)) 0 d /\ opd_manual Fp Ff x y (- d) = - opd_manual Fp Ff x y d.
Proof.
  unfold opd_manual. cbv zeta. replace (sqrt (x ^ 2 + y ^ 2) ^ 2 + 0 ^ 2) with (x ^ 2 + y ^ 2); [split; [reflexivity|]|].
  - unfold Rdiv. ring.
  - rewrite pow2_sqrt by nra. ring.
Qed.
Lemma symmetric_manual g pr sr a L Fp Ff : symmetric g {| block_dist := block_manual pr sr a L; opd_func := opd_manual Fp Ff; tel_pr := pr |}.
Proof.
  apply symmetric_of; cbn [block_dist opd_func]; [|intros; apply opd_even]. intros x y. destruct (block_manual_sym pr sr a L x y) as (A1 & A2 & A3). split; [exact A1|]. split; [exact A2|exact A3].
Qed.
Lemma symmetric_effelsberg g alpha pr : symmetric g {| block_dist := block_effelsberg alpha; opd_func := opd_effelsberg; tel_pr := pr |}.
Proof.
  apply symmetric_of; cbn [block_dist opd_func]; [|intros; rewrite !opd_effelsberg_manual; apply opd_even]. intros x y. destruct (block_effelsberg_sym alpha x y) as (A1 & A2 & A3). split; [exact A1|]. split; [exact A2|exact A3].
Qed.
Lemma moved_dist g x0 y0 x y : (x - fst (moved g x0 y0)) ^ 2 + (y - snd (moved g x0 y0)) ^ 2 = (fst (moved g x y) - x0) ^ 2 + (snd (moved g x y) - y0) ^ 2.
Proof. destruct g; cbn [moved fst snd]; ring. Qed.
Lemma moves_parabolic g pr : moves g illum_parabolic pr.
Proof. intros i_amp c_dB q x0 y0. eexists _, _. split; [reflexivity|]. split; [reflexivity|]. intros x y. cbv beta zeta. rewrite moved_dist. reflexivity. Qed.
Lemma moves_gauss g pr : moves g illum_gauss pr.
Proof. intros i_amp c_dB q x0 y0. eexists _, _. split; [reflexivity|]. split; [reflexivity|]. intros x y. cbv beta zeta. rewrite moved_dist. reflexivity. Qed.

(** * The converted coefficients one by one *)
Definition partner (g : convention) (l : Z) : Z := match g with Exchange_uv => if Z.odd l then (- l)%Z else l | _ => l end.
Lemma partner_ok g i l : admissible i l -> admissible i (partner g l).
Proof. intros [A [k B]]. unfold partner. destruct g; try (split; [exact A|exists k; exact B]). destruct (Z.odd l); split; try lia; [exists (k + l)%Z; lia|exists k; lia]. Qed.
Lemma partner_back g l : partner g (partner g l) = l.
Proof. unfold partner. destruct g; try reflexivity. destruct (Z.odd l) eqn:E; [rewrite Z.odd_opp, E; lia|rewrite E; reflexivity]. Qed.
Lemma under_sign g i l : exists s, (s = 1 \/ s = -1) /\ forall c, coeffs_under g c i l = s * c i (partner g l).
Proof.
  destruct g; cbn [coeffs_under partner].
  - unfold mirrored_x. destruct (xorb (Z.odd l) (Z.ltb l 0)); [exists (-1)|exists 1]; (split; [lra|intros; ring]).
  - unfold mirrored_y. destruct (Z.ltb l 0); [exists (-1)|exists 1]; (split; [lra|intros; ring]).
  - unfold transposed, mirrored_y. destruct (Z.odd (Z.abs l / 2)), (Z.odd l), (Z.ltb l 0); first [exists (-1); split; [lra|intros; ring]|exists 1; split; [lra|intros; ring]].
  - exists ((-1) ^ S i). split; [|reflexivity]. cbn [pow]. destruct (Nat.Even_or_Odd i) as [[k ->]|[k ->]].
    + right. rewrite pow_1_even. ring.
    + left. rewrite Nat.add_1_r, pow_1_odd. ring.
Qed.
Lemma under_back g c i l : admissible (Z.of_nat i) l -> coeffs_under g (coeffs_under g c) i l = c i l.
Proof.
  intros Ha. destruct g; cbn [coeffs_under].
  - unfold coeffs_under, mirrored_x. cbv beta. destruct (xorb (Z.odd l) (Z.ltb l 0)); ring.
  - unfold coeffs_under, mirrored_y. cbv beta. destruct (Z.ltb l 0); ring.
  - unfold coeffs_under, transposed, mirrored_y. cbv beta zeta. rewrite Z.abs_opp, Z.odd_opp. destruct (Z.odd l) eqn:O.
    + rewrite Z.opp_involutive. destruct (Z.odd (Z.abs l / 2)); ring.
    + destruct (Z.odd (Z.abs l / 2)), (Z.ltb l 0); ring.
  - rewrite <- Rmult_assoc, <- pow_add. replace (S i + S i)%nat with (2 * S i)%nat by lia. rewrite pow_1_even. ring.
Qed.
Lemma under_ext g n c c' i l : (forall i l, (i <= n)%nat -> admissible (Z.of_nat i) l -> c i l = c' i l) -> (i <= n)%nat -> admissible (Z.of_nat i) l ->
  coeffs_under g c i l = coeffs_under g c' i l.
Proof. intros H Hi Ha. destruct (under_sign g i l) as (s & _ & E). rewrite !E, H; [reflexivity|exact Hi|apply partner_ok, Ha]. Qed.
Lemma listed_of n K : length K = coeffs n -> listed n (coeff_of K) = K.
Proof.
  intros L. apply (nth_ext _ _ 0 0); [rewrite listed_coeffs; symmetry; exact L|]. intros k Hk. rewrite listed_coeffs in Hk. pose proof (coeffs_twice n) as T.
  destruct (coeff_pos_onto n k ltac:(lia)) as (i & l & Hi & Ha & <-). exact (listed_at n (coeff_of K) i l Hi Ha).
Qed.
Lemma listed_ext n c c' : (forall i l, (i <= n)%nat -> admissible (Z.of_nat i) l -> c i l = c' i l) -> listed n c = listed n c'.
Proof.
  intros H. apply (nth_ext _ _ 0 0); [rewrite !listed_coeffs; reflexivity|]. intros k Hk. rewrite listed_coeffs in Hk. pose proof (coeffs_twice n) as T.
  destruct (coeff_pos_onto n k ltac:(lia)) as (i & l & Hi & Ha & <-). change (coeff_of (listed n c) i l = coeff_of (listed n c') i l). rewrite !listed_at by assumption. apply H; assumption.
Qed.

(** * Complete vectors *)
Lemma params_len g n p : length p = (5 + coeffs n)%nat -> length (params_under g n p) = (5 + coeffs n)%nat.
Proof. intros L. destruct p as [|a [|b [|c [|d [|e K]]]]]; try discriminate. cbn [params_under length]. rewrite listed_coeffs. reflexivity. Qed.
Lemma params_back g n p : length p = (5 + coeffs n)%nat -> params_under g n (params_under g n p) = p.
Proof.
  intros L. destruct p as [|a [|b [|c [|d [|e K]]]]]; try discriminate. cbn [length] in L. cbn [params_under].
  rewrite (listed_ext n _ (coeff_of K)).
  - rewrite listed_of by lia. destruct g; cbn [moved fst snd]; rewrite ?Ropp_involutive; reflexivity.
  - intros i l Hi Ha. rewrite (under_ext g n _ (coeffs_under g (coeff_of K)) i l); [apply under_back, Ha| |exact Hi|exact Ha]. intros i' l' Hi' Ha'. apply listed_at; assumption.
Qed.
(** Every entry is, up to its sign, an entry of the original. *)
Definition source (g : convention) (j j' : nat) : Prop :=
  match j with
  | 0 | 1 | 2 => j' = j
  | 3 => j' = match g with Exchange_uv => 4 | _ => 3 end
  | 4 => j' = match g with Exchange_uv => 3 | _ => 4 end
  | _ => exists i l, admissible (Z.of_nat i) l /\ j = (5 + coeff_pos i l)%nat /\ j' = (5 + coeff_pos i (partner g l))%nat
  end%nat.
Lemma params_entry g n j : (j < 5 + coeffs n)%nat -> exists j' s, (j' < 5 + coeffs n)%nat /\ source g j j' /\ (s = 1 \/ s = -1 /\ (3 <= j)%nat) /\
  forall p : list R, length p = (5 + coeffs n)%nat -> nth j (params_under g n p) 0 = s * nth j' p 0.
Proof.
  intros Hj. assert (P : forall p : list R, length p = (5 + coeffs n)%nat -> exists a b c d e K, p = a :: b :: c :: d :: e :: K).
  { intros p L. destruct p as [|a [|b [|c [|d [|e K]]]]]; try discriminate. exists a, b, c, d, e, K. reflexivity. }
  destruct j as [|[|[|[|[|j]]]]].
  - exists 0%nat, 1. split; [lia|]. split; [reflexivity|]. split; [lra|]. intros p L. destruct (P p L) as (a & b & c & d & e & K & ->). cbn. ring.
  - exists 1%nat, 1. split; [lia|]. split; [reflexivity|]. split; [lra|]. intros p L. destruct (P p L) as (a & b & c & d & e & K & ->). cbn. ring.
  - exists 2%nat, 1. split; [lia|]. split; [reflexivity|]. split; [lra|]. intros p L. destruct (P p L) as (a & b & c & d & e & K & ->). cbn. ring.
  - exists (match g with Exchange_uv => 4 | _ => 3 end)%nat, (match g with Reverse_u | Reverse_dz => -1 | _ => 1 end). split; [destruct g; lia|]. split; [reflexivity|].
    split; [destruct g; auto; right; split; auto|]. intros p L. destruct (P p L) as (a & b & c & d & e & K & ->). destruct g; cbn; ring.
  - exists (match g with Exchange_uv => 3 | _ => 4 end)%nat, (match g with Reverse_v | Reverse_dz => -1 | _ => 1 end). split; [destruct g; lia|]. split; [reflexivity|].
    split; [destruct g; auto; right; split; auto; lia|]. intros p L. destruct (P p L) as (a & b & c & d & e & K & ->). destruct g; cbn; ring.
  - pose proof (coeffs_twice n) as T. destruct (coeff_pos_onto n j ltac:(lia)) as (i & l & Hi & Ha & <-). destruct (under_sign g i l) as (s & Hs & E).
    exists (5 + coeff_pos i (partner g l))%nat, s. pose proof (coeff_pos_lt n i (partner g l) Hi (partner_ok g _ _ Ha)). split; [lia|]. split; [exists i, l; split; [exact Ha|split; reflexivity]|].
    split; [destruct Hs; [left; assumption|right; split; [assumption|lia]]|]. intros p L. destruct (P p L) as (a & b & c & d & e & K & ->).
    change (coeff_of (listed n (coeffs_under g (coeff_of K))) i l = s * coeff_of K i (partner g l)). rewrite listed_at by assumption. apply E.
Qed.
Lemma near_under g n d q p : length q = (5 + coeffs n)%nat -> length p = (5 + coeffs n)%nat -> near d q p -> near d (params_under g n q) (params_under g n p).
Proof.
  intros Lq Lp H. apply (Forall2_build _ 0 0); [rewrite !params_len by assumption; reflexivity|]. intros j Hj. rewrite params_len in Hj by exact Lq.
  destruct (params_entry g n j Hj) as (j' & s & Hj' & _ & Hs & E). rewrite !E by assumption. pose proof (Forall2_at' _ 0 0 _ _ j' H ltac:(lia)) as D. cbv beta in D.
  destruct Hs as [-> |[-> _]]; [replace (1 * nth j' q 0 - 1 * nth j' p 0) with (nth j' q 0 - nth j' p 0) by ring; exact D|].
  replace (-1 * nth j' q 0 - -1 * nth j' p 0) with (- (nth j' q 0 - nth j' p 0)) by ring. rewrite Rabs_Ropp. exact D.
Qed.

(** * Configurations *)
Lemma pos_small i l : admissible (Z.of_nat i) l -> (coeff_pos i l < 3)%nat -> (i = 0 /\ l = 0%Z /\ coeff_pos i l = 0 \/ i = 1 /\ l = (-1)%Z /\ coeff_pos i l = 1 \/ i = 1 /\ l = 1%Z /\ coeff_pos i l = 2)%nat.
Proof.
  intros [A [k B]] H. destruct i as [|[|i]].
  - left. assert (l = 0%Z) by lia. subst l. repeat split.
  - right. assert (l = (-1)%Z \/ l = 1%Z) as [-> | ->] by lia; [left|right]; repeat split.
  - exfalso. unfold coeff_pos in H. assert (3 <= (Z.of_nat (S (S i)) * (Z.of_nat (S (S i)) + 2) + l) / 2)%Z; [|lia]. apply Z.div_le_lower_bound; [lia|]. nia.
Qed.
Lemma even_closed g c : valid_config c -> even_config c -> closed_under g c.
Proof.
  intros (_ & L2 & L3 & L4 & ex & EX & _ & LT) (EV & E34 & E67 & X34 & X67) n p Hn [LP AL]. split; [apply params_len, LP|]. intros j Hj.
  destruct (params_entry g n j Hj) as (j' & s & Hj' & SRC & Hs & E). rewrite (E p LP). destruct (AL j' Hj') as [A1 A2].
  assert (BIG : forall k, (8 <= k)%nat -> ~ In (Z.of_nat k) (cf_excluded c)).
  { intros k Hk H. rewrite EX in H. apply in_map_iff in H. destruct H as (e & H & He). specialize (LT e He). lia. }
  assert (Z34 : forall k, k = 3%nat \/ k = 4%nat -> (In (Z.of_nat k) (cf_excluded c) <-> In 3%Z (cf_excluded c)) /\ nth k (cf_bound_max c) 5 = nth 3 (cf_bound_max c) 0).
  { intros k [-> | ->]; (split; [|rewrite (nth_indep _ 5 0) by lia; congruence]); [reflexivity|symmetry; exact X34]. }
  assert (Z67 : forall k, k = 6%nat \/ k = 7%nat -> (In (Z.of_nat k) (cf_excluded c) <-> In 6%Z (cf_excluded c)) /\ nth k (cf_bound_max c) 5 = nth 6 (cf_bound_max c) 0).
  { intros k [-> | ->]; (split; [|rewrite (nth_indep _ 5 0) by lia; congruence]); [reflexivity|symmetry; exact X67]. }
  assert (SAME : (In (Z.of_nat j) (cf_excluded c) <-> In (Z.of_nat j') (cf_excluded c)) /\ nth j (cf_bound_max c) 5 = nth j' (cf_bound_max c) 5 /\ ((j < 3)%nat -> j' = j) /\ ((3 <= j)%nat -> (3 <= j')%nat)).
  { destruct j as [|[|[|[|[|j]]]]]; cbn [source] in SRC.
    - subst j'. split; [reflexivity|]. split; [reflexivity|]. split; [reflexivity|lia].
    - subst j'. split; [reflexivity|]. split; [reflexivity|]. split; [reflexivity|lia].
    - subst j'. split; [reflexivity|]. split; [reflexivity|]. split; [reflexivity|lia].
    - assert (Q : j' = 3%nat \/ j' = 4%nat) by (subst j'; destruct g; auto). destruct (Z34 3%nat (or_introl eq_refl)) as [a b]. destruct (Z34 j' Q) as [a' b']. split; [rewrite a, a'; reflexivity|]. split; [congruence|]. split; lia.
    - assert (Q : j' = 3%nat \/ j' = 4%nat) by (subst j'; destruct g; auto). destruct (Z34 4%nat (or_intror eq_refl)) as [a b]. destruct (Z34 j' Q) as [a' b']. split; [rewrite a, a'; reflexivity|]. split; [congruence|]. split; lia.
    - destruct SRC as (i & l & Ha & HJ & ->). rewrite HJ. pose proof (partner_ok g _ _ Ha) as Ha'.
      assert (D : partner g l = l \/ (Z.odd l = true /\ partner g l = (- l)%Z)) by (unfold partner; destruct g; auto; destruct (Z.odd l); auto). destruct D as [-> |[O D]].
      { split; [reflexivity|]. split; [reflexivity|]. lia. }
      destruct (le_lt_dec 3 (coeff_pos i l)) as [B1|B1].
      + assert (B2 : (3 <= coeff_pos i (partner g l))%nat).
        { destruct (le_lt_dec 3 (coeff_pos i (partner g l))) as [G|G]; [exact G|]. exfalso. destruct (pos_small _ _ Ha' G) as [(-> & D' & _)|[(-> & D' & _)|(-> & D' & _)]].
          - rewrite D in D'. assert (l = 0%Z) by lia. subst l. discriminate.
          - assert (l = 1%Z) by lia. subst l. cbn in B1. lia.
          - assert (l = (-1)%Z) by lia. subst l. cbn in B1. lia. }
        split; [split; intros H; exfalso; revert H; apply BIG; lia|]. split; [rewrite !nth_overflow by lia; reflexivity|lia].
      + destruct (pos_small _ _ Ha B1) as [(-> & -> & P)|[(-> & -> & P)|(-> & -> & P)]]; [discriminate| |]; rewrite D.
        * destruct (Z67 6%nat (or_introl eq_refl)) as [a b], (Z67 7%nat (or_intror eq_refl)) as [a' b']. change (5 + coeff_pos 1 (-1))%nat with 6%nat. change (5 + coeff_pos 1 (- -1))%nat with 7%nat. split; [rewrite a, a'; reflexivity|]. split; [congruence|lia].
        * destruct (Z67 6%nat (or_introl eq_refl)) as [a b], (Z67 7%nat (or_intror eq_refl)) as [a' b']. change (5 + coeff_pos 1 1)%nat with 7%nat. change (5 + coeff_pos 1 (-(1)))%nat with 6%nat. split; [rewrite a, a'; reflexivity|]. split; [congruence|lia]. }
  destruct SAME as (S1 & S2 & S3 & S4).
  assert (MIN : forall k, (3 <= k)%nat -> nth k (cf_bound_min c) (-5) = - nth k (cf_bound_max c) 5).
  { intros k Hk. destruct (le_lt_dec 8 k) as [G|G]; [rewrite !nth_overflow by lia; lra|]. rewrite (nth_indep _ (-5) 0), (nth_indep _ 5 0) by lia. apply EV. lia. }
  destruct (le_lt_dec 3 j) as [B|B].
  - specialize (S4 B). split.
    + intros H. assert (Hk : (j < 8)%nat) by (destruct (le_lt_dec 8 j) as [G|G]; [exfalso; exact (BIG j G H)|exact G]). apply S1 in H. assert (Hk' : (j' < 8)%nat) by (destruct (le_lt_dec 8 j') as [G|G]; [exfalso; exact (BIG j' G H)|exact G]).
      rewrite (A1 H), (proj2 (EV j' ltac:(lia))), (proj2 (EV j ltac:(lia))). ring.
    + intros H. assert (H' : ~ In (Z.of_nat j') (cf_excluded c)) by (rewrite <- S1; exact H). specialize (A2 H'). rewrite MIN in * by assumption. rewrite <- S2 in A2. destruct Hs as [-> |[-> _]]; lra.
  - rewrite (S3 B) in *. destruct Hs as [-> |[_ G]]; [|lia]. rewrite Rmult_1_l. exact (conj A1 A2).
Qed.
Lemma default_even : even_config default_config.
Proof.
  split; [|split; [reflexivity|split; [reflexivity|split; cbn; intuition lia]]].
  intros i Hi. destruct i as [|[|[|[|[|[|[|[|i]]]]]]]]; try lia; cbn; split; lra.
Qed.

(** * Fits *)
Lemma explained_under g a a' n p r : set_up g a -> recorded g a a' -> length p = (5 + coeffs n)%nat -> explained a' (params_under g n p) r <-> explained a p r.
Proof.
  intros (Hw & Hp & Hb & HS & HM & HG) (E1 & E2 & E3 & E4 & E5 & E6 & E7 & E8 & E9) L. unfold explained. rewrite E1, E2, E3, E4, E5, E6, E7, E8, E9.
  rewrite (residual_under g _ _ n p) by (assumption || exact HG). reflexivity.
Qed.
Lemma determined_under g a a' c n p e d : (1 <= n)%nat -> set_up g a -> recorded g a a' -> closed_under g c -> length p = (5 + coeffs n)%nat ->
  determined a c n p e d -> determined a' c n (params_under g n p) e d.
Proof.
  intros Hn HU HA HC L H q r Hq Hx He. pose proof (proj1 Hq) as Lq. rewrite <- (params_back g n q Lq) in Hx. apply (proj1 (explained_under g a a' n (params_under g n q) r HU HA (params_len g n q Lq))) in Hx.
  specialize (H _ r (HC n q Hn Hq) Hx He). apply (near_under g n) in H; [|apply params_len, Lq|exact L]. rewrite params_back in H by exact Lq. exact H.
Qed.
Section Fit.
Variables (g : convention) (orc : oracle) (a a' : fit_args) (s s' : fs) (c : config) (m : nat) (e : R).
Hypothesis (W : file_tree s) (Hr : run (fit_zpoly orc a') s = (Ok tt, s')) (Hf : free_number a' s) (Hc : configured a' s c) (Hv : valid_config c).
Hypothesis (Hm : (1 <= m)%nat) (Hb : best_from orc a' c m e) (HU : set_up g a) (HA : recorded g a a') (HC : closed_under g c).
Lemma fit_under p r0 : allowed c m p -> explained a p r0 ->
  exists j, (j <= 100)%nat /\ s (numbered (fit_dir a') (fa_name a') j) = None /\
  forall n, (m <= n <= fa_order_max a')%nat -> exists rows r,
    fitpar_rows s' (numbered (fit_dir a') (fa_name a') j) n rows /\
    csv_file s' (numbered (fit_dir a') (fa_name a') j) ("res_n" ^^ dec n ^^ ".csv") ("Residual " ^^ fa_name a') (A2 (map (map Fin) r)) /\
    allowed c n (map parfit rows) /\ explained a (params_under g n (map parfit rows)) (concat r) /\ sum_sq (concat r) <= sum_sq r0 + e /\
    (forall d, determined a c n (p ++ repeat 0 (coeffs n - coeffs m)) (sum_sq r0 + e) d -> near d (map parfit rows) (params_under g n (p ++ repeat 0 (coeffs n - coeffs m)))).
Proof.
  intros HP HX. destruct (best_bounds orc a' s s' c m e W Hr Hf Hc Hv Hm Hb (params_under g m p) r0 (HC m p Hm HP)) as (j & Hj & Hj0 & F); [exact (proj2 (explained_under g a a' m p r0 HU HA (proj1 HP)) HX)|].
  exists j. split; [exact Hj|]. split; [exact Hj0|]. intros n Hn. destruct (F n Hn) as (rows & r & F1 & F2 & F3 & F4 & F5). exists rows, r. split; [exact F1|]. split; [exact F2|]. split; [exact F3|].
  pose proof (proj1 F3) as Lr.
  split. { apply (proj1 (explained_under g a a' n _ _ HU HA (params_len g n _ Lr))). rewrite params_back by exact Lr. exact F4. }
  split; [exact F5|]. intros d D. apply (determined_under g a a' c n) in D; [|lia|exact HU|exact HA|exact HC|rewrite app_length, repeat_length, (proj1 HP); assert (coeffs m <= coeffs n)%nat by (replace n with (m + (n - m))%nat by lia; apply coeffs_le); lia].
  exact (D _ _ F3 F4 F5).
Qed.
End Fit.

(** Two fits of the same observation, one under each convention. *)
Lemma feasible_under g a a' c n x r : valid_config c -> (1 <= n)%nat -> set_up g a -> recorded g a a' -> closed_under g c ->
  feasible c n x -> misfit a c n x = Ok r -> exists x', feasible c n x' /\ misfit a' c n x' = Ok r.
Proof.
  intros Hv Hn HU HA HC F M. unfold misfit, residual in M. apply bind_ok in M. destruct M as (p & P & M).
  assert (A : allowed c n p) by (apply allowed_iff; eauto). pose proof (HC n p Hn A) as A'. apply allowed_iff in A'; [|exact Hv|exact Hn]. destruct A' as (x' & F' & P'). exists x'. split; [exact F'|].
  unfold misfit, residual. rewrite P'. cbn [bind]. exact (proj2 (explained_under g a a' n p r HU HA (proj1 A)) M).
Qed.
Lemma feasible_under_back g a a' c n x r : valid_config c -> (1 <= n)%nat -> set_up g a -> recorded g a a' -> closed_under g c ->
  feasible c n x -> misfit a' c n x = Ok r -> exists x', feasible c n x' /\ misfit a c n x' = Ok r.
Proof.
  intros Hv Hn HU HA HC F M. unfold misfit, residual in M. apply bind_ok in M. destruct M as (p & P & M).
  assert (A : allowed c n p) by (apply allowed_iff; eauto). pose proof (HC n p Hn A) as A'. pose proof (proj1 A') as L'. apply allowed_iff in A'; [|exact Hv|exact Hn]. destruct A' as (x' & F' & P'). exists x'. split; [exact F'|].
  unfold misfit, residual. rewrite P'. cbn [bind]. apply (proj1 (explained_under g a a' n _ r HU HA L')). rewrite params_back by exact (proj1 A). exact M.
Qed.
Lemma equally_good g orc orc' a a' s s' t t' c e : file_tree s -> file_tree t -> run (fit_zpoly orc a) s = (Ok tt, s') -> run (fit_zpoly orc' a') t = (Ok tt, t') ->
  free_number a s -> free_number a' t -> configured a s c -> configured a' t c -> valid_config c -> best_from orc a c 1 e -> best_from orc' a' c 1 e ->
  set_up g a -> recorded g a a' -> closed_under g c ->
  exists j j', s (numbered (fit_dir a) (fa_name a) j) = None /\ t (numbered (fit_dir a') (fa_name a') j') = None /\
  forall n, (1 <= n <= fa_order_max a)%nat -> (n <= fa_order_max a')%nat -> exists r r',
    csv_file s' (numbered (fit_dir a) (fa_name a) j) ("res_n" ^^ dec n ^^ ".csv") ("Residual " ^^ fa_name a) (A2 (map (map Fin) r)) /\
    csv_file t' (numbered (fit_dir a') (fa_name a') j') ("res_n" ^^ dec n ^^ ".csv") ("Residual " ^^ fa_name a') (A2 (map (map Fin) r')) /\
    Rabs (sum_sq (concat r') - sum_sq (concat r)) <= e.
Proof.
  intros W W' R R' F F' C C' Hv B B' HU HA HC.
  destruct (best_stored orc a s s' c e W R F C B) as (j & _ & Hj & G). destruct (best_stored orc' a' t t' c e W' R' F' C' B') as (j' & _ & Hj' & G').
  exists j, j'. split; [exact Hj|]. split; [exact Hj'|]. intros n Hn Hn'. destruct (G n Hn) as (out & r & (O1 & O2 & O3) & Er & S1). destruct (G' n ltac:(lia)) as (out' & r' & (O1' & O2' & O3') & Er' & S1').
  exists r, r'. split; [exact S1|]. split; [exact S1'|]. rewrite Er, Er'.
  destruct (feasible_under g a a' c n _ _ Hv (proj1 Hn) HU HA HC O1 O2) as (x & X1 & X2). destruct (feasible_under_back g a a' c n _ _ Hv (proj1 Hn) HU HA HC O1' O2') as (y & Y1 & Y2).
  pose proof (O3' x _ X1 X2). pose proof (O3 y _ Y1 Y2). unfold Rabs. destruct (Rcase_abs _); lra.
Qed.

(** The example of the tilted telescope. *)
Lemma tilt_closed : closed_under Reverse_dz tilt_config.
Proof.
  intros n p Hn [L A]. split; [apply params_len, L|]. intros j Hj. destruct (params_entry Reverse_dz n j Hj) as (j' & s & Hj' & SRC & Hs & E). rewrite (E p L).
  assert (JJ : j' = j) by (destruct j as [|[|[|[|[|j]]]]]; try exact SRC; destruct SRC as (i & l & _ & -> & ->); reflexivity). subst j'.
  destruct (A j Hj) as [A1 A2]. destruct (le_lt_dec 8 j) as [G|G].
  - split; [intros H; exfalso; cbn in H; lia|]. intros H. specialize (A2 H). rewrite (nth_overflow (cf_bound_min tilt_config) (-5) G), (nth_overflow (cf_bound_max tilt_config) 5 G) in *. destruct Hs as [-> |[-> _]]; lra.
  - destruct j as [|[|[|[|[|[|[|[|j]]]]]]]]; try lia.
    1-3: destruct Hs as [-> |[_ Q]]; [rewrite Rmult_1_l; exact (conj A1 A2)|lia].
    1-4: split; [intros H; rewrite (A1 H); cbn; destruct Hs as [-> |[-> _]]; ring|intros H; exfalso; apply H; cbn; lia].
    assert (E7 : nth 7 (params_under Reverse_dz n p) 0 = nth 7 p 0).
    { destruct p as [|a [|b [|c [|d [|e K]]]]]; try discriminate. change (coeff_of (listed n (coeffs_under Reverse_dz (coeff_of K))) 1 1 = coeff_of K 1 1). rewrite listed_at; [cbn [coeffs_under pow]; ring|exact Hn|]. split; [cbn; lia|exists 0%Z; reflexivity]. }
    rewrite <- (E p L), E7. exact (conj A1 A2).
Qed.
Definition reversed_args : fit_args := {|
  fa_name := "reversed"; fa_pthto := ["w"]; fa_object := "test001"; fa_date := "now"; fa_freq := 32; fa_wavel := 1 / 100; fa_d_z := [2; 0; -3]; fa_meanel := 0;
  fa_beam := fa_beam (tilt_args (1 / 2)); fa_u := fa_u (tilt_args (1 / 2)); fa_v := fa_v (tilt_args (1 / 2)); fa_order_max := 1;
  fa_illum := illum_parabolic; fa_illum_name := "parabolic"; fa_tel := fa_tel (tilt_args (1 / 2)); fa_opd_name := "manual"; fa_tel_name := "manual";
  fa_resolution := 2; fa_box_factor := 1 / 10; fa_fit_previous := true; fa_config_file := Some ["w"; "notes.csv"]; fa_make_plots := true; fa_work_dir := None |}%string.
Lemma reversed_set_up : set_up Reverse_dz reversed_args.
Proof. unfold set_up. split; [cbn; lra|]. split; [cbn; lra|]. split; [cbn; lra|]. split; [apply symmetric_manual|]. split; [apply moves_parabolic|]. intros x Hx. destruct Hx. Qed.
Lemma reversed_recorded : recorded Reverse_dz reversed_args (tilt_args (1 / 2)).
Proof. repeat split. cbn [fa_d_z tilt_args reversed_args dz_under map]. repeat (f_equal; try lra). Qed.
Lemma reversed_like : like_tilt reversed_args.
Proof.
  split; [reflexivity|]. intros t Ht. set (p := [1; - (29 / 2); 7 / 5; 0; 0; 0; 0; t]). change (explained reversed_args p (concat (repeat [0; 0; tilt_q (1 / 2) - tilt_q t; 0] 3))).
  apply (explained_under Reverse_dz reversed_args (tilt_args (1 / 2)) 1 p _ reversed_set_up reversed_recorded eq_refl).
  replace (params_under Reverse_dz 1 p) with p by (cbv -[IZR Rmult Ropp Rdiv Rinv]; repeat (f_equal; try lra)). exact (tilt_explained t (1 / 2) Ht ltac:(lra)).
Qed.
Lemma reversed_free : free_number reversed_args tilt_fs.
Proof. exists 0%nat. split; [lia|]. reflexivity. Qed.
Lemma reversed_fit t : 1 / 2 < t <= 3 / 5 -> exists s', run (fit_zpoly (tilt_oracle t) reversed_args) tilt_fs = (Ok tt, s').
Proof.
  intros H. apply (own_completes _ _ _ tilt_config); [exact tilt_tree|split; [reflexivity|right; reflexivity]|exact reversed_free|reflexivity|exact tilt_valid|intros rs J k; reflexivity|exact (like_regular _ t reversed_like H)|cbn; lra|].
  repeat split; try (cbn; lia); destruct i as [|[|[|i]]]; cbn; discriminate || lia.
Qed.
