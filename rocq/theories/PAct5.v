(** generate_phase_pr, fit_zpoly and fit_grav_deformation of the actuator class. *)
From Coq Require Import List Psatz.
From Verif Require Import PyBase PyLib Num MZernike MMath MAperture MFs MAct SZernike SAct SAct2 PZernike PRodrigues PBound PWave PPhase PPhase2 PAct PAct3 PAct4.
Import ListNotations.
Open Scope R_scope.

Lemma mapM_nth {A B} (f : A -> res B) l r a b i : mapM f l = Ok r -> (i < length l)%nat -> f (nth i l a) = Ok (nth i r b).
Proof.
  intros H. apply mapM_Forall2 in H. revert i. induction H as [|x y l r Hx F IH]; intros i Hi; cbn in Hi; [lia|].
  destruct i as [|i]; cbn; [assumption|]. apply IH. lia.
Qed.
Lemma mapM_total {A B} (f : A -> res B) l : (forall x, In x l -> exists y, f x = Ok y) -> exists r, mapM f l = Ok r.
Proof.
  induction l as [|x l IH]; intros H; [exists []; reflexivity|]. destruct (H x (or_introl eq_refl)) as [y Hy].
  destruct IH as [ys Hys]; [intros; apply H; right; assumption|]. exists (y :: ys). cbn. rewrite Hy. cbn. rewrite Hys. reflexivity.
Qed.
Lemma py_get_nth {A} (l : list A) i d x : py_get l i = Ok x -> (i < length l)%nat /\ x = nth i l d.
Proof.
  unfold py_get. destruct (nth_error l i) eqn:E; [|discriminate]. intros H. apply Ok_inj in H. subst. split.
  - apply nth_error_Some. congruence.
  - symmetry. apply nth_error_nth. assumption.
Qed.
Lemma py_get_ok {A} (l : list A) i d : (i < length l)%nat -> py_get l i = Ok (nth i l d).
Proof. intros H. unfold py_get. rewrite (nth_error_nth' l d H). reflexivity. Qed.

(** The coefficients of one elevation. *)
Lemma gen_coeffs_spec o g alpha K : gen_coeffs o g alpha = Ok K ->
  length K = ac_N_K o /\ forall k, (k < ac_N_K o)%nat -> grav_deformation (nth k g []) alpha = Ok (nth k K 0).
Proof.
  intros H. unfold gen_coeffs in H. split; [apply mapM_length in H; rewrite seq_length in H; assumption|].
  intros k Hk. pose proof (mapM_nth _ _ _ 0%nat 0 k H) as E. rewrite seq_length in E. specialize (E Hk). rewrite seq_nth in E by assumption.
  cbn [Nat.add] in E. destruct (py_get g k) as [gk|] eqn:Eg; [|discriminate]. cbn [bind] in E.
  apply (py_get_nth g k []) in Eg. destruct Eg as [_ ->]. assumption.
Qed.
Lemma gen_coeffs_ok o g alpha : (ac_N_K o <= length g)%nat -> (forall k, (k < ac_N_K o)%nat -> (3 <= length (nth k g []))%nat) ->
  exists K, gen_coeffs o g alpha = Ok K.
Proof.
  intros Hg H3. apply mapM_total. intros k Hk. apply in_seq in Hk. rewrite (py_get_ok g k []) by lia. cbn [bind].
  pose proof (H3 k ltac:(lia)) as L. destruct (nth k g []) as [|x [|y [|z t]]]; cbn in L; try lia. rewrite grav_ok. eexists. reflexivity.
Qed.
Lemma N_K_twice o : (2 * ac_N_K o = (ac_order o + 1) * (ac_order o + 2))%nat.
Proof.
  unfold ac_N_K. set (n := ac_order o). pose proof (Nat.div_mod ((n + 1) * (n + 2)) 2 ltac:(lia)) as D.
  assert (E : Nat.even ((n + 1) * (n + 2)) = true).
  { rewrite Nat.even_mul. replace (n + 2)%nat with (S (n + 1)) by lia. rewrite Nat.even_succ, <- Nat.negb_even. destruct (Nat.even (n + 1)); reflexivity. }
  apply Nat.even_spec in E. destruct E as [q E]. rewrite E in *. rewrite (Nat.mul_comm 2 q), Nat.div_mul by lia. lia.
Qed.

(** Correction of one map. *)
Definition corrected (o : actuator) (use : bool) (m : list (list num)) : list (list num) :=
  if use then map2 (map2 nmul) m (ellipsoidal_actuator_correction o) else m.
Definition phase_of (o : actuator) (g : list (list R)) (alpha : angle) : res (list (list R)) :=
  bind (gen_coeffs o g alpha) (fun K => bind (phase K (ac_pr o) false false (ac_resolution o)) (fun '(_, _, phi) => Ok phi)).
Lemma gen_step_unfold o g use phases a alpha : gen_step o g use phases a alpha =
  bind (phase_of o g alpha) (fun phi => bind (py_set phases a (map2d Fin phi)) (fun p => Ok (map (corrected o use) p))).
Proof.
  unfold gen_step, phase_of. destruct (gen_coeffs o g alpha) as [K|e]; [|reflexivity]. cbn [bind].
  destruct (phase K (ac_pr o) false false (ac_resolution o)) as [[[x y] phi]|e]; [|reflexivity]. cbn [bind].
  destruct (py_set phases a (map2d Fin phi)) as [p|e]; [|reflexivity]. cbn [bind]. destruct use; [reflexivity|].
  unfold corrected. rewrite map_id. reflexivity.
Qed.
Lemma iter_S {A} (f : A -> A) n x : Nat.iter (S n) f x = Nat.iter n f (f x).
Proof. induction n as [|n IH]; [reflexivity|]. change (Nat.iter (S (S n)) f x) with (f (Nat.iter (S n) f x)). rewrite IH. reflexivity. Qed.
Lemma nth_map_lt {A B} (f : A -> B) l i d e : (i < length l)%nat -> nth i (map f l) e = f (nth i l d).
Proof. intros H. rewrite (nth_indep _ e (f d)) by (rewrite map_length; assumption). apply map_nth. Qed.

Lemma gen_loop_spec o g use d : forall alphas a phases out, length phases = (a + length alphas)%nat ->
  gen_loop o g use phases a alphas = Ok out ->
  length out = length phases /\
  (forall b, (b < a)%nat -> nth b out [] = Nat.iter (length alphas) (corrected o use) (nth b phases [])) /\
  (forall i, (i < length alphas)%nat -> exists phi, phase_of o g (nth i alphas d) = Ok phi /\
     nth (a + i) out [] = Nat.iter (length alphas - i) (corrected o use) (map2d Fin phi)).
Proof.
  induction alphas as [|alpha alphas IH]; intros a phases out HL H.
  - cbn in H. apply Ok_inj in H. subst out. split; [reflexivity|]. split; [reflexivity|]. cbn; intros; lia.
  - cbn [gen_loop] in H. rewrite gen_step_unfold in H. destruct (phase_of o g alpha) as [phi|e] eqn:Ep; [|discriminate]. cbn [bind] in H.
    unfold py_set in H. cbn [length] in HL. rewrite (proj2 (Nat.ltb_lt a (length phases))) in H by lia. cbn [bind] in H.
    set (P := map (corrected o use) (set_nth phases a (map2d Fin phi))) in H.
    assert (LP : length P = length phases) by (unfold P; rewrite map_length, set_nth_length; reflexivity).
    destruct (IH (S a) P out) as (L & Hb & Hi); [rewrite LP; lia|assumption|]. split; [congruence|]. split.
    + intros b Hlt. rewrite Hb by lia. cbn [length]. rewrite iter_S. f_equal. unfold P.
      rewrite (nth_map_lt _ _ _ []) by (rewrite set_nth_length; lia). rewrite set_nth_other by lia. reflexivity.
    + intros [|i] Hlt; cbn [length] in Hlt |- *.
      * exists phi. split; [assumption|]. rewrite Nat.add_0_r, Nat.sub_0_r. rewrite Hb by lia. rewrite iter_S. f_equal. unfold P.
        rewrite (nth_map_lt _ _ _ []) by (rewrite set_nth_length; lia). rewrite set_nth_same by lia. reflexivity.
      * destruct (Hi i ltac:(lia)) as (phi' & E1 & E2). exists phi'. split; [assumption|].
        replace (a + S i)%nat with (S a + i)%nat by lia. rewrite E2. reflexivity.
Qed.
Lemma gen_loop_ok o g use : forall alphas a phases, length phases = (a + length alphas)%nat ->
  (forall alpha, In alpha alphas -> exists phi, phase_of o g alpha = Ok phi) -> exists out, gen_loop o g use phases a alphas = Ok out.
Proof.
  induction alphas as [|alpha alphas IH]; intros a phases HL H; [eexists; reflexivity|].
  cbn [gen_loop]. rewrite gen_step_unfold. destruct (H alpha (or_introl eq_refl)) as [phi ->]. cbn [bind]. cbn [length] in HL.
  unfold py_set. rewrite (proj2 (Nat.ltb_lt a (length phases))) by lia. cbn [bind]. apply IH.
  - rewrite map_length, set_nth_length. lia.
  - intros. apply H. right. assumption.
Qed.
Lemma gen_ok o g alphas use : (1 <= ac_order o)%nat -> 0 < ac_pr o -> (ac_N_K o <= length g)%nat ->
  (forall k, (k < ac_N_K o)%nat -> (3 <= length (nth k g []))%nat) -> exists out, generate_phase_pr o g alphas use = Ok out.
Proof.
  intros Ho Hpr Hg H3. apply gen_loop_ok; [rewrite repeat_length; reflexivity|]. intros alpha _. unfold phase_of.
  destruct (gen_coeffs_ok o g alpha Hg H3) as [K EK]. rewrite EK. cbn [bind]. apply gen_coeffs_spec in EK. destruct EK as [LK _].
  destruct (phase_ok K (ac_pr o) false false (ac_resolution o) (ac_order o)) as (phi & E & _); [rewrite LK; apply N_K_twice|assumption|assumption|].
  rewrite E. eexists. reflexivity.
Qed.

Lemma phase_of_map o g alpha phi : phase_of o g alpha = Ok phi -> elevation_map o g alpha phi.
Proof.
  unfold phase_of. destruct (gen_coeffs o g alpha) as [K|e] eqn:E; [|discriminate]. cbn [bind].
  destruct (phase K (ac_pr o) false false (ac_resolution o)) as [[[x y] phi']|e] eqn:Ep; [|discriminate]. cbn [bind]. intros H. apply Ok_inj in H. subst phi'.
  apply gen_coeffs_spec in E. exists K, x, y. tauto.
Qed.
Lemma phase_rect K pr p t n x y phi : phase K pr p t n = Ok (x, y, phi) -> rect n n phi.
Proof.
  intros H. apply phase_inv in H. destruct H as (K' & W & _ & _ & _ & _ & ->). unfold pixel_map. split; [rewrite map_length, linspace_length; reflexivity|].
  rewrite Forall_map, Forall_forall. intros v _. rewrite map_length, linspace_length. reflexivity.
Qed.

Lemma gen_plain o g alphas out d : generate_phase_pr o g alphas false = Ok out ->
  length out = length alphas /\
  forall a, (a < length alphas)%nat -> exists phi, elevation_map o g (nth a alphas d) phi /\ nth a out [] = map2d Fin phi.
Proof.
  intros H. apply (gen_loop_spec o g false d) in H; [|rewrite repeat_length; reflexivity]. destruct H as (L & _ & H).
  split; [rewrite L, repeat_length; reflexivity|]. intros a Ha. destruct (H a Ha) as (phi & E1 & E2). exists phi.
  split; [apply phase_of_map; assumption|]. cbn [Nat.add] in E2. rewrite E2.
  assert (I : forall n m, Nat.iter n (corrected o false) m = m). { induction n as [|n IH]; intros m; [reflexivity|]. rewrite iter_S. apply IH. }
  apply I.
Qed.

Lemma correction_spec o : rect (ac_resolution o) (ac_resolution o) (ellipsoidal_actuator_correction o) /\
  forall j i, (j < ac_resolution o)%nat -> (i < ac_resolution o)%nat ->
    elem NaN (ellipsoidal_actuator_correction o) j i = eac (143050 / 10000) (73872 / 10000) (sub_radius o j i).
Proof.
  unfold ellipsoidal_actuator_correction, sr_radii. set (n := ac_resolution o). set (x := linspace (- ac_sr o) (ac_sr o) n).
  assert (Lx : length x = n) by apply linspace_length.
  assert (Rm : rect n n (meshgrid x x)).
  { unfold meshgrid. split; [rewrite map_length; assumption|]. rewrite Forall_map, Forall_forall. intros; rewrite map_length; assumption. }
  split; [do 2 apply rect_map2d; assumption|]. intros j i Hj Hi. rewrite map2d_map2d. rewrite (elem_map2d' _ (0, 0) NaN n n) by assumption.
  assert (E : elem (0, 0) (meshgrid x x) j i = (nth i x 0, nth j x 0)).
  { unfold elem, meshgrid. rewrite (nth_map_lt _ x j 0) by congruence. rewrite (nth_map_lt _ x i 0) by congruence. reflexivity. }
  rewrite E. reflexivity.
Qed.
Lemma map2_rect {A B C} (f : A -> B -> C) r c m m' : rect r c m -> rect r c m' -> rect r c (map2 (map2 f) m m').
Proof.
  intros [L F] [L' F']. split; [rewrite map2_length; congruence|].
  assert (LL : length m = length m') by congruence. clear L L'. revert m' F' LL. induction F as [|row m Hr F IH]; intros m' F' LL; destruct m' as [|row' m']; cbn in LL; try discriminate; [constructor|].
  inversion F'; subst. cbn [map2]. constructor; [rewrite map2_length; congruence|]. apply IH; [assumption|congruence].
Qed.
Lemma map2_elem {A B C} (f : A -> B -> C) a b c r n m m' i j : rect r n m -> rect r n m' -> (i < r)%nat -> (j < n)%nat ->
  elem c (map2 (map2 f) m m') i j = f (elem a m i j) (elem b m' i j).
Proof.
  intros H H' Hi Hj. unfold elem. destruct (H) as [L _]. destruct (H') as [L' _].
  rewrite (map2_nth _ m m' i [] []) by congruence.
  rewrite (map2_nth f _ _ j a b); [reflexivity| |]; rewrite (rect_row r n m i H Hi); [symmetry; apply (rect_row r n m' i H' Hi)|assumption].
Qed.
Lemma iter_corrected o c phi j i : rect (ac_resolution o) (ac_resolution o) phi -> (j < ac_resolution o)%nat -> (i < ac_resolution o)%nat ->
  eac (143050 / 10000) (73872 / 10000) (sub_radius o j i) = Fin c -> forall k,
  rect (ac_resolution o) (ac_resolution o) (Nat.iter k (corrected o true) (map2d Fin phi)) /\
  elem NaN (Nat.iter k (corrected o true) (map2d Fin phi)) j i = Fin (elem 0 phi j i * c ^ k).
Proof.
  intros Hp Hj Hi Hc. destruct (correction_spec o) as [RC EC]. induction k as [|k [IR IE]].
  - cbn [Nat.iter nat_rect]. split; [apply rect_map2d; assumption|]. rewrite (elem_map2d' Fin 0 NaN _ _ _ _ _ Hp Hj Hi). cbn. f_equal. ring.
  - change (Nat.iter (S k) (corrected o true) (map2d Fin phi)) with (corrected o true (Nat.iter k (corrected o true) (map2d Fin phi))).
    unfold corrected at 1 3. split; [apply map2_rect; assumption|].
    rewrite (map2_elem nmul NaN NaN NaN _ _ _ _ j i IR RC Hj Hi). rewrite IE, EC, Hc by assumption. cbn [nmul]. f_equal. cbn [pow]. ring.
Qed.
Lemma linspace_abs a n i : 0 <= a -> (i < n)%nat -> Rabs (nth i (linspace (- a) a n) 0) <= a.
Proof.
  intros Ha Hi. rewrite linspace_nth by assumption. destruct n as [|[|n]]; [lia| |].
  - assert (i = 0)%nat by lia. subst i. cbn [INR]. rewrite Rmult_0_l, Rplus_0_r, Rabs_Ropp, Rabs_right; lra.
  - replace (S (S n) - 1)%nat with (S n) by lia. assert (HN : 0 < INR (S n)) by (apply lt_0_INR; lia).
    assert (Hb : 0 <= INR i <= INR (S n)) by (split; [apply pos_INR|apply le_INR; lia]).
    assert (0 <= INR i / INR (S n) <= 1).
    { split; [apply Rmult_le_pos; [lra|left; apply Rinv_0_lt_compat; assumption]|]. apply Rmult_le_reg_r with (INR (S n)); [assumption|]. unfold Rdiv. rewrite Rmult_assoc, Rinv_l by lra. lra. }
    replace (- a + INR i * ((a - - a) / INR (S n))) with (a * (2 * (INR i / INR (S n)) - 1)) by (field; lra).
    rewrite Rabs_mult, (Rabs_right a) by lra. assert (Rabs (2 * (INR i / INR (S n)) - 1) <= 1) by (apply Rabs_le; lra). nra.
Qed.
Lemma sub_radius_le o j i : 0 <= ac_sr o -> (j < ac_resolution o)%nat -> (i < ac_resolution o)%nat -> 0 <= sub_radius o j i <= ac_sr o * sqrt 2.
Proof.
  intros Hs Hj Hi. unfold sub_radius. split; [apply sqrt_pos|].
  pose proof (linspace_abs _ _ i Hs Hi) as A. pose proof (linspace_abs _ _ j Hs Hj) as B.
  set (x := nth i _ 0) in *. set (y := nth j _ 0) in *. clearbody x y.
  rewrite <- (sqrt_square (ac_sr o)) at 1 by assumption. rewrite <- sqrt_mult by nra. apply sqrt_le_1_alt.
  pose proof (Rsqr_le_abs_1 x (ac_sr o)) as P. rewrite (Rabs_right (ac_sr o)) in P by lra. specialize (P A).
  pose proof (Rsqr_le_abs_1 y (ac_sr o)) as Q. rewrite (Rabs_right (ac_sr o)) in Q by lra. specialize (Q B). unfold Rsqr in *. nra.
Qed.

Lemma gen_corrected o g alphas out d : 0 <= ac_sr o -> ac_sr o * sqrt 2 <= 73872 / 10000 ->
  generate_phase_pr o g alphas true = Ok out ->
  length out = length alphas /\
  forall a, (a < length alphas)%nat -> exists phi, elevation_map o g (nth a alphas d) phi /\ rect (ac_resolution o) (ac_resolution o) (nth a out []) /\
    forall j i, (j < ac_resolution o)%nat -> (i < ac_resolution o)%nat -> exists c,
      eac (143050 / 10000) (73872 / 10000) (sub_radius o j i) = Fin c /\ 0 <= c <= 1 /\
      elem NaN (nth a out []) j i = Fin (elem 0 phi j i * c ^ (length alphas - a)).
Proof.
  intros Hs Hb H. apply (gen_loop_spec o g true d) in H; [|rewrite repeat_length; reflexivity]. destruct H as (L & _ & H).
  split; [rewrite L, repeat_length; reflexivity|]. intros a Ha. destruct (H a Ha) as (phi & E1 & E2). cbn [Nat.add] in E2. exists phi.
  pose proof (phase_of_map _ _ _ _ E1) as EM. split; [exact EM|]. destruct EM as (K & x & y & _ & _ & Ep). pose proof (phase_rect _ _ _ _ _ _ _ _ Ep) as Rp.
  rewrite E2. split.
  - assert (I : forall k, rect (ac_resolution o) (ac_resolution o) (Nat.iter k (corrected o true) (map2d Fin phi))).
    { induction k as [|k IH]; [apply rect_map2d; assumption|]. apply map2_rect; [exact IH|apply correction_spec]. }
    apply I.
  - intros j i Hj Hi. pose proof (sub_radius_le o j i Hs Hj Hi) as Hr.
    destruct (eac_range (143050 / 10000) (73872 / 10000) (sub_radius o j i)) as (c & Ec & Hc); [lra|lra|lra|].
    exists c. split; [assumption|]. split; [assumption|]. apply iter_corrected; assumption.
Qed.
