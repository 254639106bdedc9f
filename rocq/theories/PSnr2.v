(** C102: the signal-to-noise ratios. *)
From Coq Require Import Reals List Lia Lra String.
From Verif Require Import PyBase Sums PyLib Num MMath MFs MOut SMath SOut SFit SSnr PPhase PNorm PRms PSnr PFs PFit9.
Import ListNotations.
Open Scope R_scope.

Definition known (l : list (option R)) : list R := flat_map (fun x => match x with Some a => [a] | None => [] end) l.
Lemma drop_known l : drop_nan (map pixel_num l) = map Fin (known l).
Proof. induction l as [|[a|] l IH]; [reflexivity| |]; cbn; [f_equal|]; exact IH. Qed.
Lemma drop_twice l : drop_nan (drop_nan l) = drop_nan l.
Proof. unfold drop_nan. induction l as [|x l IH]; [reflexivity|]. cbn. destruct (nisnan x) eqn:E; cbn; [exact IH|]. rewrite E. cbn. f_equal. exact IH. Qed.
Lemma nansum_drop (f : num -> num) l : f NaN = NaN -> nansum (map f l) = nansum (map f (drop_nan l)).
Proof.
  intros H. unfold nansum. induction l as [|x l IH]; [reflexivity|]. cbn. destruct x; cbn; rewrite (fold_nadd (map _ (map f l))), IH.
  - symmetry. apply fold_nadd.
  - symmetry. apply fold_nadd.
  - symmetry. apply fold_nadd.
  - rewrite H. cbn [nisnan nadd]. rewrite Rplus_0_l. apply nadd_0_l.
Qed.
Lemma nanstd_drop l : nanstd l = nanstd (drop_nan l).
Proof.
  unfold nanstd, nanmean. rewrite drop_twice. replace (nansum l) with (nansum (drop_nan l)) by (rewrite <- (map_id l) at 2; rewrite (nansum_drop (fun x => x) l eq_refl), map_id; reflexivity).
  f_equal. f_equal. apply (nansum_drop (fun a => nsquare (nsub a _)) l). reflexivity.
Qed.
Lemma nanmax_drop l : nanmax l = nanmax (drop_nan l).
Proof. unfold nanmax. rewrite drop_twice. reflexivity. Qed.
Lemma sel_pixels (b : nat -> nat -> bool) (f : nat -> nat -> option R) s t :
  concat (map (fun j => map (fun i => pixel_num (f j i)) (filter (b j) s)) t) = map pixel_num (concat (map (fun j => map (f j) (filter (b j) s)) t)).
Proof. rewrite concat_map, map_map. f_equal. apply map_ext. intros j. rewrite map_map. reflexivity. Qed.
Lemma known_app a b : known (a ++ b) = known a ++ known b.
Proof. apply flat_map_app. Qed.
Lemma known_noise n0 n1 f u v centre radius : noise_values n0 n1 f u v centre radius =
  known (concat (map (fun j => map (f j) (filter (fun i => Rltb ((u i - centre) ^ 2 + (v j - centre) ^ 2) (radius ^ 2)) (seq 0 n1))) (seq 0 n0))).
Proof.
  unfold noise_values. induction (seq 0 n0) as [|j t IH]; [reflexivity|]. cbn [flat_map map concat]. rewrite known_app, IH. f_equal. clear IH.
  induction (seq 0 n1) as [|i s IHs]; [reflexivity|]. cbn [flat_map filter]. rewrite IHs. unfold Rltb at 2. destruct (Rlt_dec _ _); [|reflexivity]. reflexivity.
Qed.
Lemma known_in l a : In a (known l) <-> In (Some a) l.
Proof.
  unfold known. rewrite in_flat_map. split; [|intros H; exists (Some a); split; [exact H|left; reflexivity]].
  intros ([b|] & H & D); [|destruct D]. destruct D as [<-|[]]. exact H.
Qed.
Lemma picture_concat n0 n1 f : concat (picture n0 n1 f) = map pixel_num (concat (map (fun j => map (f j) (seq 0 n1)) (seq 0 n0))).
Proof. unfold picture. rewrite concat_map, map_map. f_equal. apply map_ext. intros j. rewrite map_map. reflexivity. Qed.
Lemma peak_value n0 n1 f peak : peak_of n0 n1 f peak -> nanmax (concat (picture n0 n1 f)) = Fin peak.
Proof.
  intros [(j0 & i0 & Hj & Hi & Hp) Hmax]. rewrite nanmax_drop, picture_concat, drop_known. set (l := known _).
  assert (Hin : forall x, In x l <-> exists j i, (j < n0)%nat /\ (i < n1)%nat /\ f j i = Some x).
  { intros x. unfold l. rewrite known_in, in_concat. split.
    - intros (r & Hr & Hx). apply in_map_iff in Hr as (j & <- & Hj'). apply in_map_iff in Hx as (i & E & Hi'). apply in_seq in Hj', Hi'. exists j, i. repeat split; try lia. exact E.
    - intros (j & i & Hj' & Hi' & E). exists (map (f j) (seq 0 n1)). split; [apply in_map_iff; exists j; split; [reflexivity|apply in_seq; lia]|]. rewrite <- E. apply in_map, in_seq. lia. }
  assert (Hpl : In peak l) by (apply Hin; eauto). destruct l as [|x t]; [destruct Hpl|]. rewrite nanmax_Fin. f_equal.
  destruct (fold_Rmax_spec t x) as [I L]. apply Hin in I as (j & i & H1 & H2 & E). specialize (Hmax j i _ H1 H2 E). specialize (L peak Hpl). lra.
Qed.
Lemma sel_value n0 n1 f (u v : nat -> R) centre radius : drop_nan (map snd (filter fst (combine
    (concat (map2d (fun '(uu, vv) => Rltb ((uu - centre) ^ 2 + (vv - centre) ^ 2) (radius ^ 2)) (meshgrid (map u (seq 0 n1)) (map v (seq 0 n0)))))
    (concat (picture n0 n1 f))))) = map Fin (noise_values n0 n1 f u v centre radius).
Proof.
  unfold map2d, meshgrid, picture. rewrite !map_map.
  rewrite (map_ext _ (fun j => map (fun i => Rltb ((u i - centre) ^ 2 + (v j - centre) ^ 2) (radius ^ 2)) (seq 0 n1))).
  2:{ intros j. rewrite !map_map. reflexivity. }
  rewrite (sel_rows (fun j i => Rltb ((u i - centre) ^ 2 + (v j - centre) ^ 2) (radius ^ 2)) (fun j i => pixel_num (f j i))).
  rewrite sel_pixels, drop_known, <- known_noise. reflexivity.
Qed.
Lemma grid_missing n0 n1 f u v centre radius peak : peak_of n0 n1 f peak -> noise_values n0 n1 f u v centre radius <> [] ->
  snr_grid (picture n0 n1 f) (map u (seq 0 n1)) (map v (seq 0 n0)) centre radius = ndiv (Fin peak) (Fin (stdR (noise_values n0 n1 f u v centre radius))).
Proof.
  intros P N. unfold snr_grid. rewrite (peak_value _ _ _ _ P), nanstd_drop, sel_value, nanstd_Fin by exact N. reflexivity.
Qed.
Lemma grid_no_noise n0 n1 f u v centre radius : noise_values n0 n1 f u v centre radius = [] ->
  snr_grid (picture n0 n1 f) (map u (seq 0 n1)) (map v (seq 0 n0)) centre radius = NaN.
Proof.
  intros N. unfold snr_grid. rewrite nanstd_drop, sel_value, N. unfold nanstd, nanmean. cbn. destruct (Req_EM_T 0 0) as [_|X]; [|contradiction]. unfold inf_sign. destruct (Rlt_dec 0 0); [lra|].
  cbn. destruct (nanmax _); reflexivity.
Qed.
Lemma least_first l x : smallest l x -> np_min (map Fin l) = Ok (Fin x).
Proof.
  intros [I L]. destruct l as [|y t]; [destruct I|]. cbn [map np_min]. rewrite fold_nmin_Fin. f_equal. f_equal. destruct (fold_Rmin_spec t y) as [I' L']. specialize (L _ I'). specialize (L' _ I). lra.
Qed.
Lemma greatest_first l x : largest l x -> np_max (map Fin l) = Ok (Fin x).
Proof.
  intros [I L]. destruct l as [|y t]; [destruct I|]. cbn [map np_max]. rewrite fold_nmax_Fin. f_equal. f_equal. destruct (fold_Rmax_spec t y) as [I' L']. specialize (L _ I'). specialize (L' _ I). lra.
Qed.
Lemma spread_linspace a b : linspace a b 300 = map (spread a b) (seq 0 300).
Proof. unfold linspace. apply map_ext. intros i. unfold spread. replace (INR (300 - 1)) with 299 by (rewrite INR_IZR_INZ; reflexivity). field. Qed.
Lemma scatter_value gd b u v u0 u1 v0 v1 centre radius f peak : smallest u u0 -> largest u u1 -> smallest v v0 -> largest v v1 ->
  gd u v b (map (spread u0 u1) (seq 0 300)) (map (spread v0 v1) (seq 0 300)) = picture 300 300 f -> peak_of 300 300 f peak ->
  noise_values 300 300 f (spread u0 u1) (spread v0 v1) centre radius <> [] ->
  snr_scatter gd b u v centre radius = Ok (ndiv (Fin peak) (Fin (stdR (noise_values 300 300 f (spread u0 u1) (spread v0 v1) centre radius)))).
Proof.
  intros A B C D G P N. unfold snr_scatter. rewrite (least_first _ _ A), (greatest_first _ _ B), (least_first _ _ C), (greatest_first _ _ D). cbn [bind nan_to_num]. cbv zeta.
  rewrite !spread_linspace, G. apply f_equal. exact (grid_missing 300 300 f (spread u0 u1) (spread v0 v1) centre radius peak P N).
Qed.
Lemma scatter_fails gd b u v centre radius : u = [] \/ v = [] -> snr_scatter gd b u v centre radius = Err ValueError.
Proof. intros [->| ->]; [reflexivity|]. unfold snr_scatter. destruct u; reflexivity. Qed.

Lemma get_error {A} (l : list A) k x : py_get l k = Ok x <-> nth_error l k = Some x.
Proof. unfold py_get. destruct (nth_error l k); split; intros H; try discriminate; injection H as ->; reflexivity. Qed.
Definition ratio (orc : oracle) (a : fit_args) (k : nat) : res num :=
  bind (py_get (fa_beam a) k) (fun b => bind (py_get (fa_u a) k) (fun u => bind (py_get (fa_v a) k) (fun v =>
  bind (snr_scatter (or_griddata orc) b u v (4 / 100 * PI / 180) (1 / 100 * PI / 180)) (fun x => Ok (or_round2 orc x))))).
Lemma ratio_iff orc a k y : ratio orc a k = Ok y <-> exists b u v x, nth_error (fa_beam a) k = Some b /\ nth_error (fa_u a) k = Some u /\ nth_error (fa_v a) k = Some v /\
  snr_scatter (or_griddata orc) b u v (deg (4 / 100)) (deg (1 / 100)) = Ok x /\ y = or_round2 orc x.
Proof.
  unfold ratio. split.
  - intros H. destruct (py_get (fa_beam a) k) as [b|] eqn:E1; [|discriminate]. destruct (py_get (fa_u a) k) as [u|] eqn:E2; [|discriminate]. destruct (py_get (fa_v a) k) as [v|] eqn:E3; [|discriminate].
    cbn [bind] in H. destruct (snr_scatter _ _ _ _ _ _) as [x|] eqn:E4; [|discriminate]. cbn [bind] in H. apply Ok_inj in H. exists b, u, v, x.
    split; [apply get_error, E1|]. split; [apply get_error, E2|]. split; [apply get_error, E3|]. split; [exact E4|symmetry; exact H].
  - intros (b & u & v & x & E1 & E2 & E3 & E4 & ->). rewrite (proj2 (get_error _ _ _) E1), (proj2 (get_error _ _ _) E2), (proj2 (get_error _ _ _) E3). cbn [bind]. unfold deg in E4. rewrite E4. reflexivity.
Qed.
Lemma values_iff orc a snrs : snr_values orc a = Ok snrs <-> ratios orc a snrs.
Proof.
  change (snr_values orc a) with (mapM (ratio orc a) [0; 1; 2]%nat). unfold ratios. split.
  - intros H. cbn [mapM] in H. destruct (ratio orc a 0) as [x0|] eqn:E0; [|discriminate]. destruct (ratio orc a 1) as [x1|] eqn:E1; [|discriminate]. destruct (ratio orc a 2) as [x2|] eqn:E2; [|discriminate].
    cbn [bind] in H. injection H as <-. split; [reflexivity|]. intros k Hk.
    destruct k as [|[|[|k]]]; [apply ratio_iff in E0 as (b & u & v & x & H1 & H2 & H3 & H4 & ->)|apply ratio_iff in E1 as (b & u & v & x & H1 & H2 & H3 & H4 & ->)|apply ratio_iff in E2 as (b & u & v & x & H1 & H2 & H3 & H4 & ->)|lia];
      exists b, u, v, x; repeat split; assumption.
  - intros [L H]. destruct snrs as [|y0 [|y1 [|y2 [|]]]]; cbn in L; try lia.
    assert (Q : forall k y, (k < 3)%nat -> nth_error [y0; y1; y2] k = Some y -> ratio orc a k = Ok y).
    { intros k y Hk E. destruct (H k Hk) as (b & u & v & x & H1 & H2 & H3 & H4 & H5). apply ratio_iff. exists b, u, v, x. repeat split; try assumption. congruence. }
    cbn [mapM]. rewrite (Q 0%nat y0), (Q 1%nat y1), (Q 2%nat y2) by (lia || reflexivity). reflexivity.
Qed.
Lemma ratios_amplified orc a b snrs : fa_u a = fa_u b -> fa_v a = fa_v b -> amplified (fa_beam a) (fa_beam b) -> homogeneous (or_griddata orc) -> ratios orc a snrs -> ratios orc b snrs.
Proof.
  intros Eu Ev [L G] Hm [L3 H]. split; [exact L3|]. intros k Hk. destruct (H k Hk) as (m & u & v & x & H1 & H2 & H3 & H4 & H5).
  destruct (nth_error (fa_beam b) k) as [m'|] eqn:E. 2:{ apply nth_error_None in E. rewrite <- L in E. apply nth_error_None in E. congruence. }
  destruct (G k m m' H1 E) as (g & Hg & ->). exists (map (nmul (Fin g)) m), u, v, x. rewrite <- Eu, <- Ev. split; [reflexivity|]. split; [exact H2|]. split; [exact H3|]. split; [|exact H5]. rewrite (snr_scatter_gain g Hg _ m u v); [exact H4|]. apply Hm, Hg.
Qed.
Lemma ratios_unique orc a x y : ratios orc a x -> ratios orc a y -> x = y.
Proof. intros H K. apply values_iff in H, K. rewrite H in K. injection K as ->. reflexivity. Qed.
Lemma stored_ratios orc a s s' c : wf s -> run (fit_zpoly orc a) s = (Ok tt, s') -> free_number a s -> configured a s c -> (1 <= fa_order_max a)%nat ->
  exists j i, (j <= 100)%nat /\ s (numbered (fit_dir a) (fa_name a) j) = None /\ s' (numbered (fit_dir a) (fa_name a) j ++ ["pyoof_info.yml"%string]) = Some (File (Info i)) /\ ratios orc a (ri_snr i).
Proof.
  intros W R F C M. destruct (stored_together orc a s s' c W R F C) as (j & snrs & Hj & Hn & S0 & D & _). destruct (D M) as (_ & _ & _ & i & Hi & Ds). exists j, i. repeat split; try assumption;
  destruct Ds as (_ & _ & _ & _ & _ & _ & _ & _ & _ & _ & _ & _ & _ & ->); apply values_iff in S0; apply S0.
Qed.
(** A constant added to the map changes its ratio, so normalising it does. *)
Definition step_map (lo hi : R) (j i : nat) : R := if (Nat.eqb j 1 && Nat.eqb i 1)%bool then hi else lo.
Definition step_grid (lo hi : R) : list (list num) := map (fun j => map (fun i => Fin (step_map lo hi j i)) (seq 0 2)) (seq 0 2).
Lemma step_noise lo hi : noise_pixels 2 2 (step_map lo hi) INR INR 0 2 = [lo; lo; lo; hi].
Proof.
  unfold noise_pixels. cbn [seq map concat filter]. assert (E : forall i j, (i < 2)%nat -> (j < 2)%nat -> Rltb ((INR i - 0) ^ 2 + (INR j - 0) ^ 2) (2 ^ 2) = true).
  { intros i j Hi Hj. apply Rltb_true. destruct i as [|[|i]]; [| |lia]; (destruct j as [|[|j]]; [| |lia]); cbn; lra. }
  rewrite !E by lia. reflexivity.
Qed.
Lemma step_std lo hi : lo < hi -> stdR [lo; lo; lo; hi] = (hi - lo) * sqrt (3 / 16).
Proof.
  intros H. unfold stdR, meanR. replace (py_sum (map _ _) / INR (length [lo; lo; lo; hi])) with ((hi - lo) ^ 2 * (3 / 16)).
  2:{ unfold py_sum. cbn. field. }
  rewrite sqrt_mult by (nra || lra). f_equal. apply sqrt_pow2. lra.
Qed.
Lemma step_ratio lo hi : lo < hi -> snr_grid (step_grid lo hi) (map INR (seq 0 2)) (map INR (seq 0 2)) 0 2 = Fin (hi / ((hi - lo) * sqrt (3 / 16))).
Proof.
  intros H. unfold step_grid. rewrite (snr_value 2 2 (step_map lo hi) INR INR 0 2 hi).
  - rewrite step_noise, step_std by exact H. cbn [ndiv]. pose proof (sqrt_lt_R0 (3 / 16) ltac:(lra)). destruct (Req_EM_T _ 0) as [E|_]; [exfalso; nra|]. reflexivity.
  - exists 1%nat, 1%nat. repeat split; lia.
  - intros j i _ _. unfold step_map. destruct (_ && _)%bool; lra.
  - rewrite step_noise. discriminate.
Qed.
Lemma step_norm : norm_all (concat (step_grid 1 3)) = Ok [0; 0; 0; 1].
Proof.
  unfold norm_all, step_grid. cbn [seq map concat app step_map Nat.eqb andb].
  change [Fin 1; Fin 1; Fin 1; Fin 3] with (map Fin [1; 1; 1; 3]).
  rewrite (least_first _ 1), (greatest_first _ 3) by (split; [cbn; tauto|]; cbn; intros y Hy; lra). cbn [bind map]. unfold norm_by, nsub. cbn [nneg nadd ndiv].
  destruct (Req_EM_T _ 0) as [E|_]; [exfalso; lra|]. cbn [nan_to_num]. apply f_equal. f_equal; [unfold Rdiv; ring|]. f_equal; [unfold Rdiv; ring|]. f_equal; [unfold Rdiv; ring|]. f_equal. field.
Qed.
Lemma norm_changes : exists P : list (list num), exists Q : list (list R), exists x y, norm_all (concat P) = Ok (concat Q) /\ length P = 2%nat /\ length Q = 2%nat /\
  (forall r, In r P -> length r = 2%nat) /\ (forall r, In r Q -> length r = 2%nat) /\
  snr_grid P [0; 1] [0; 1] 0 2 = Fin x /\ snr_grid (map (map Fin) Q) [0; 1] [0; 1] 0 2 = Fin y /\ x <> y.
Proof.
  exists (step_grid 1 3), [[0; 0]; [0; 1]], (3 / ((3 - 1) * sqrt (3 / 16))), (1 / ((1 - 0) * sqrt (3 / 16))).
  split; [exact step_norm|]. split; [reflexivity|]. split; [reflexivity|]. split; [intros r [<-|[<-|[]]]; reflexivity|]. split; [intros r [<-|[<-|[]]]; reflexivity|].
  split; [exact (step_ratio 1 3 ltac:(lra))|]. split; [exact (step_ratio 0 1 ltac:(lra))|].
  pose proof (sqrt_lt_R0 (3 / 16) ltac:(lra)) as H. intros E. apply (f_equal (fun z => z * sqrt (3 / 16))) in E. replace (3 / ((3 - 1) * sqrt (3 / 16)) * sqrt (3 / 16)) with (3 / 2) in E by (field; lra).
  replace (1 / ((1 - 0) * sqrt (3 / 16)) * sqrt (3 / 16)) with 1 in E by (field; lra). lra.
Qed.
