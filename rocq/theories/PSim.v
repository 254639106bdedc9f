(** Lemmas on simulate_data_pyoof. *)
From Coq Require Import String Ascii List.
From Verif Require Import PyBase PyLib Num MZernike MMath MAperture MRad MFs MAct MAux MSim SAux SSim PStr PFs PRad PAux.
From Coquelicot Require Import Complex.
Import ListNotations.
Open Scope R_scope.
Open Scope string_scope.
Open Scope list_scope.

(** Lists of lists. *)
Lemma list_nth {A} (l : list A) d : l = map (fun i => nth i l d) (seq 0 (length l)).
Proof.
  induction l as [|x l IH]; [reflexivity|]. cbn [length seq map nth]. f_equal. rewrite <- seq_shift, map_map. exact IH.
Qed.
Lemma combine_map {A B C} (f : A -> B) (g : A -> C) l : combine (map f l) (map g l) = map (fun x => (f x, g x)) l.
Proof. induction l as [|x l IH]; cbn; [reflexivity|]. now rewrite IH. Qed.
Lemma combine_app {A B} (a1 a2 : list A) (b1 b2 : list B) : length a1 = length b1 -> combine (a1 ++ a2) (b1 ++ b2) = combine a1 b1 ++ combine a2 b2.
Proof. revert b1. induction a1 as [|x a1 IH]; intros [|y b1] H; cbn in *; try discriminate; [reflexivity|]. f_equal. apply IH. lia. Qed.
Lemma combine_concat {A B C} (f : nat -> C -> A) (g : nat -> C -> B) (rs : list nat) cs :
  combine (concat (map (fun r => map (f r) cs) rs)) (concat (map (fun r => map (g r) cs) rs)) =
  concat (map (fun r => map (fun c => (f r c, g r c)) cs) rs).
Proof.
  induction rs as [|r rs IH]; [reflexivity|]. cbn [map concat]. rewrite combine_app by (rewrite !map_length; reflexivity).
  rewrite IH, combine_map. reflexivity.
Qed.
Lemma filter_map {A B} (p : B -> bool) (f : A -> B) l : filter p (map f l) = map f (filter (fun x => p (f x)) l).
Proof. induction l as [|x l IH]; cbn; [reflexivity|]. destruct (p (f x)); cbn; now rewrite IH. Qed.
Lemma filter_false {A} (l : list A) : filter (fun _ => false) l = [].
Proof. induction l; auto. Qed.
Lemma filter_concat_grid {A} (p : A -> bool) (q : nat -> bool) (f : nat -> nat -> A) rs cs :
  (forall r c, In r rs -> In c cs -> p (f r c) = q r && q c) ->
  filter p (concat (map (fun r => map (f r) cs) rs)) = concat (map (fun r => map (f r) (filter q cs)) (filter q rs)).
Proof.
  intros H. induction rs as [|r rs IH]; [reflexivity|]. cbn [map concat filter]. rewrite filter_app, filter_map.
  rewrite IH by (intros; apply H; [right|]; assumption).
  rewrite (filter_ext_in _ (fun c => q r && q c)) by (intros c C; apply H; [left; reflexivity|exact C]).
  destruct (q r); cbn [map concat].
  - rewrite (filter_ext (fun c => true && q c) q) by reflexivity. reflexivity.
  - rewrite (filter_ext (fun c => false && q c) (fun _ => false)) by reflexivity.
    rewrite filter_false. reflexivity.
Qed.
Lemma concat_length_grid {A} (f : nat -> nat -> A) rs cs : length (concat (map (fun r => map (f r) cs) rs)) = (length rs * length cs)%nat.
Proof. induction rs as [|r rs IH]; [reflexivity|]. cbn. rewrite app_length, map_length, IH. reflexivity. Qed.
Lemma chunks_grid {A} (f : nat -> nat -> A) rs cs : chunks (length cs) (length rs) (concat (map (fun r => map (f r) cs) rs)) = map (fun r => map (f r) cs) rs.
Proof.
  induction rs as [|r rs IH]; [reflexivity|]. cbn [length chunks map concat].
  assert (L : length (map (f r) cs) = length cs) by apply map_length.
  f_equal.
  - rewrite firstn_app, L, Nat.sub_diag. cbn [firstn]. rewrite app_nil_r. apply firstn_all2. rewrite L. lia.
  - rewrite skipn_app, L, Nat.sub_diag, skipn_all2 by (rewrite L; lia). cbn [skipn app]. exact IH.
Qed.
Lemma map_concat_grid {A B} (g : A -> B) (f : nat -> nat -> A) rs cs :
  map g (concat (map (fun r => map (f r) cs) rs)) = concat (map (fun r => map (fun c => g (f r c)) cs) rs).
Proof. rewrite concat_map, map_map. f_equal. apply map_ext. intros r. apply map_map. Qed.

Lemma Rabs_lt_iff x l : Rabs x < l <-> - l < x < l.
Proof. split; [intros H; apply Rabs_def2 in H; lra|intros [A B]; apply Rabs_def1; lra]. Qed.
Lemma Rabs_le_iff x l : Rabs x <= l <-> - l <= x <= l.
Proof. split; [intros H; unfold Rabs in H; destruct (Rcase_abs x); lra|intros [A B]; apply Rabs_le; lra]. Qed.

Lemma map_nth_seq {A B} (f : A -> B) l d : map f l = map (fun i => f (nth i l d)) (seq 0 (length l)).
Proof. rewrite (list_nth l d) at 1. apply map_map. Qed.
Lemma meshgrid_eq (a b : list R) : meshgrid a b = map (fun j => map (fun i => (nth i a 0, nth j b 0)) (seq 0 (length a))) (seq 0 (length b)).
Proof. unfold meshgrid. rewrite (map_nth_seq _ b 0). apply map_ext. intros j. exact (map_nth_seq (fun xi => (xi, nth j b 0)) a 0). Qed.

(** The trimmed maps. *)
Section Trim.
  Variables (lim : R) (u : list R) (P : list (list R)) (n : nat).
  Hypothesis (Lu : length u = n) (LP : length P = n) (LR : forall row, In row P -> length row = n).
  Let x i := nth i u 0.
  Let pw j i := nth i (nth j P []) 0.
  Let qc i := Rleb (Rabs (x i)) lim.
  Let qo i := Rltb (Rabs (x i)) lim.

  Lemma cells_eq : combine (concat (meshgrid u u)) (concat P) =
    concat (map (fun j => map (fun i => ((x i, x j), pw j i)) (seq 0 n)) (seq 0 n)).
  Proof.
    rewrite <- combine_concat. f_equal.
    - rewrite meshgrid_eq, Lu. reflexivity.
    - f_equal. rewrite (list_nth P []) at 1. rewrite LP. apply map_ext_in. intros j J. apply in_seq in J.
      rewrite (list_nth (nth j P []) 0) at 1. rewrite LR; [reflexivity|]. apply nth_In. lia.
  Qed.
  Let ic := filter qc (seq 0 n).
  Let io := filter qo (seq 0 n).

  Lemma trim_eq : trim lim u u P =
    if Nat.eqb (length io * length io) (length ic * length ic)
    then Ok (map (fun r => map (fun c => x c) io) io, map (fun r => map (fun c => x r) io) io, map (fun r => map (pw r) ic) ic)
    else Err ValueError.
  Proof.
    unfold trim. rewrite cells_eq.
    rewrite (filter_concat_grid _ qc).
    2:{ intros r c _ _. cbv beta iota. unfold qc. fold (x r) (x c).
        destruct (Rltb_spec (x c) (- lim)); destruct (Rltb_spec lim (x c)); destruct (Rltb_spec (x r) (- lim)); destruct (Rltb_spec lim (x r));
          destruct (Rleb_spec (Rabs (x r)) lim) as [A|A]; destruct (Rleb_spec (Rabs (x c)) lim) as [B|B]; cbn; try reflexivity; exfalso; rewrite Rabs_le_iff in A, B; lra. }
    rewrite (filter_concat_grid _ qo).
    2:{ intros r c _ _. cbv beta iota. unfold qo. fold (x r) (x c).
        destruct (Rltb_spec (- lim) (x c)); destruct (Rltb_spec (x c) lim); destruct (Rltb_spec (- lim) (x r)); destruct (Rltb_spec (x r) lim);
          destruct (Rltb_spec (Rabs (x r)) lim) as [A|A]; destruct (Rltb_spec (Rabs (x c)) lim) as [B|B]; cbn; try reflexivity; exfalso; rewrite Rabs_lt_iff in A, B; lra. }
    fold ic io. rewrite !map_concat_grid. cbn [fst snd].
    rewrite !concat_length_grid, Nat.sqrt_square. unfold reshape_square. rewrite !concat_length_grid, Nat.eqb_refl. cbn [bind].
    destruct (Nat.eqb (length io * length io) (length ic * length ic)) eqn:E; [|reflexivity].
    assert (L : length io = length ic) by (apply Nat.eqb_eq in E; nia).
    rewrite chunks_grid. cbn [bind]. rewrite <- !L, !chunks_grid. reflexivity.
  Qed.

  Lemma trim_clear : clear_of u lim -> ic = io.
  Proof.
    intros C. apply filter_ext_in. intros i I. apply in_seq in I. unfold qc, qo.
    assert (x i <> x i \/ Rabs (x i) <> lim) by (right; apply C; apply nth_In; lia).
    destruct (Rleb_spec (Rabs (x i)) lim); destruct (Rltb_spec (Rabs (x i)) lim); try reflexivity; lra.
  Qed.
  Lemma trim_on_limit : ~ clear_of u lim -> (length io < length ic)%nat.
  Proof.
    intros C.
    assert (exists i, (i < n)%nat /\ Rabs (x i) = lim) as (i & I & E).
    { destruct (Exists_dec (fun y => Rabs y = lim) u (fun y => Req_EM_T (Rabs y) lim)) as [X|X].
      - apply Exists_exists in X. destruct X as (y & Y & E). apply (In_nth _ _ 0) in Y. destruct Y as (i & I & <-). exists i. split; [lia|exact E].
      - exfalso. apply C. intros y Y E. apply X. apply Exists_exists. exists y. split; assumption. }
    assert (G : forall l, (length (filter qo l) <= length (filter qc l) /\ (In i l -> length (filter qo l) < length (filter qc l)))%nat).
    { intros l. induction l as [|k l (H1 & H2)]; [cbn; split; [lia|intros []]|]. cbn [filter In].
      assert (Q : qo k = true -> qc k = true) by (unfold qo, qc; rewrite Rltb_true, Rleb_true; lra).
      split.
      - destruct (qo k) eqn:K1; [rewrite Q by reflexivity; cbn; lia|]. destruct (qc k); cbn; lia.
      - intros [->|J].
        + assert (A : qo i = false) by (unfold qo; apply Rltb_false; lra). assert (B : qc i = true) by (unfold qc; apply Rleb_true; lra).
          rewrite A, B. cbn. lia.
        + specialize (H2 J). destruct (qo k) eqn:K1; [rewrite Q by reflexivity; cbn; lia|]. destruct (qc k); cbn; lia. }
    apply G. apply in_seq. lia.
  Qed.

  Lemma trim_err : ~ clear_of u lim -> trim lim u u P = Err ValueError.
  Proof.
    intros C. rewrite trim_eq. pose proof (trim_on_limit C). destruct (Nat.eqb_spec (length io * length io) (length ic * length ic)); [nia|reflexivity].
  Qed.
  Lemma trim_ok : clear_of u lim -> trim lim u u P =
    Ok (map (fun r => map (fun c => x c) io) io, map (fun r => map (fun c => x r) io) io, map (fun r => map (pw r) io) io).
  Proof. intros C. rewrite trim_eq, (trim_clear C), Nat.eqb_refl. reflexivity. Qed.
End Trim.

(** The window of an increasing axis. *)
Lemma filter_window (q : nat -> bool) n : (forall i j k, (i <= j <= k)%nat -> (k < n)%nat -> q i = true -> q k = true -> q j = true) ->
  exists i0 k, filter q (seq 0 n) = seq i0 k /\ (i0 + k <= n)%nat.
Proof.
  induction n as [|n IH]; intros H; [exists 0%nat, 0%nat; split; [reflexivity|lia]|].
  destruct IH as (i0 & k & E & L). { intros i j k0 A B. apply H; [exact A|lia]. }
  rewrite seq_S, filter_app, E. cbn [filter Nat.add]. destruct (q n) eqn:Q.
  - destruct k as [|k]; [exists n, 1%nat; split; [reflexivity|lia]|].
    assert (I : In i0 (filter q (seq 0 n))) by (rewrite E; left; reflexivity). apply filter_In in I. destruct I as [_ Qi].
    destruct (Nat.eq_dec (i0 + S k) n) as [Eq|Ne].
    + exists i0, (S (S k)). split; [|lia]. rewrite (seq_S (S k) i0), Eq. reflexivity.
    + exfalso. assert (Qm : q (i0 + S k)%nat = true). { apply (H i0 (i0 + S k)%nat n); try lia; assumption. }
      assert (I : In (i0 + S k)%nat (filter q (seq 0 n))) by (apply filter_In; split; [apply in_seq; lia|exact Qm]).
      rewrite E in I. apply in_seq in I. lia.
  - exists i0, k. rewrite app_nil_r. split; [reflexivity|lia].
Qed.
Lemma grid_seq {A} (f : nat -> nat -> A) i0 k : map (fun r => map (f r) (seq i0 k)) (seq i0 k) = rows k (fun r c => f (i0 + r)%nat (i0 + c)%nat).
Proof.
  unfold rows. assert (S : seq i0 k = map (fun i => i0 + i)%nat (seq 0 k)).
  { clear f. revert i0. induction k as [|k IH]; intros i0; [reflexivity|]. cbn [seq map]. f_equal; [lia|].
    rewrite IH, (IH 1%nat), map_map. apply map_ext. intros; lia. }
  rewrite S, map_map. apply map_ext. intros r. rewrite map_map. reflexivity.
Qed.

Lemma filter_range n i0 k : (i0 + k <= n)%nat -> filter (fun i => Nat.leb i0 i && Nat.ltb i (i0 + k)) (seq 0 n) = seq i0 k.
Proof.
  intros L. replace n with (i0 + (k + (n - i0 - k)))%nat by lia. rewrite !seq_app, !filter_app. cbn [Nat.add].
  rewrite (filter_ext_in _ (fun _ => false) (seq 0 i0)).
  2:{ intros i I. apply in_seq in I. destruct (Nat.leb_spec i0 i); [lia|reflexivity]. }
  rewrite (filter_ext_in _ (fun _ => false) (seq (i0 + k) _)).
  2:{ intros i I. apply in_seq in I. destruct (Nat.ltb_spec i (i0 + k)); [lia|]. apply andb_false_r. }
  rewrite !filter_false. cbn [app]. rewrite app_nil_r.
  rewrite (filter_ext_in _ (fun _ => true)).
  2:{ intros i I. apply in_seq in I. destruct (Nat.leb_spec i0 i); [|lia]. destruct (Nat.ltb_spec i (i0 + k)); [reflexivity|lia]. }
  clear. generalize (seq i0 k). intros l. induction l as [|x l IH]; [reflexivity|]. cbn. f_equal. exact IH.
Qed.
Lemma window_filter u lim i0 k : window u lim i0 k -> filter (fun i => Rltb (Rabs (nth i u 0)) lim) (seq 0 (length u)) = seq i0 k.
Proof.
  intros (L & W). rewrite <- (filter_range (length u) i0 k L). apply filter_ext_in. intros i I. apply in_seq in I.
  specialize (W i ltac:(lia)). destruct (Rltb_spec (Rabs (nth i u 0)) lim) as [A|A]; destruct (Nat.leb_spec i0 i); destruct (Nat.ltb_spec i (i0 + k)); cbn; try reflexivity; exfalso;
    first [apply A; apply W; lia | apply W in A; lia].
Qed.
Lemma filter_window_is u lim i0 k : filter (fun i => Rltb (Rabs (nth i u 0)) lim) (seq 0 (length u)) = seq i0 k -> (i0 + k <= length u)%nat -> window u lim i0 k.
Proof.
  intros E L. split; [exact L|]. intros i I. rewrite <- (in_seq k i0 i), <- E, filter_In, in_seq, Rltb_true. split; [intros H; split; [lia|exact H]|intros [_ H]; exact H].
Qed.


Lemma limit_eq a : sim_limit a = half_width a.
Proof. unfold sim_limit, half_width. lra. Qed.
Lemma limit_pos a : physical a -> 0 < sim_limit a.
Proof.
  intros (W & P & _). unfold sim_limit. apply Rmult_lt_0_compat; [lra|]. apply Rdiv_lt_0_compat; [|lra]. apply Rmult_lt_0_compat; lra.
Qed.
Lemma axis_window a z u v F : physical a -> beam_of a z = Ok (u, v, F) -> exists i0 k, window u (sim_limit a) i0 k /\ (0 < k)%nat.
Proof.
  intros Ph B. pose proof (limit_pos a Ph) as LP. destruct Ph as (W & P & X).
  destruct (axes_api _ _ _ _ _ _ _ _ _ _ _ W P X B) as (_ & Lu & _ & _ & N2 & _ & _ & Z & M).
  destruct (filter_window (fun i => Rltb (Rabs (nth i u 0)) (sim_limit a)) (length u)) as (i0 & k & E & L).
  - intros i j k IJ K. rewrite !Rltb_true, !Rabs_lt_iff. intros A C. rewrite Lu in K.
    assert (nth i u 0 <= nth j u 0). { destruct (Nat.eq_dec i j) as [->|]; [lra|]. left. apply M. lia. }
    assert (nth j u 0 <= nth k u 0). { destruct (Nat.eq_dec j k) as [->|]; [lra|]. left. apply M. lia. }
    lra.
  - exists i0, k. pose proof (filter_window_is _ _ _ _ E L) as Wi. split; [exact Wi|].
    destruct Wi as (_ & Wi). specialize (Wi (si_resolution a / 2)%nat ltac:(rewrite Lu; exact N2)). rewrite Z, Rabs_R0 in Wi. apply Wi in LP. lia.
Qed.
Lemma same_axis a z z' u v F u' v' F' : beam_of a z = Ok (u, v, F) -> beam_of a z' = Ok (u', v', F') -> u' = u.
Proof.
  intros B B'. apply rad_inv in B, B'. destruct B as (_ & _ & _ & _ & -> & _). destruct B' as (_ & _ & _ & _ & -> & _). reflexivity.
Qed.

Lemma power_at F r c n : length F = n -> (forall row, In row F -> length row = n) -> (r < n)%nat -> (c < n)%nat ->
  nth c (nth r (power_pattern F) []) 0 = Cmod (at2 F r c) ^ 2.
Proof.
  intros L LR Hr Hc. unfold power_pattern, map2d, at2.
  rewrite (nth_indep _ [] (map (fun z => Cmod z ^ 2) [])) by (rewrite map_length; lia). rewrite map_nth.
  rewrite (nth_indep _ 0 ((fun z => Cmod z ^ 2) (RtoC 0))) by (rewrite map_length, LR; [lia|apply nth_In; lia]).
  apply (map_nth (fun z => Cmod z ^ 2)).
Qed.

Lemma sim_map_ok a z u v F i0 k : physical a -> beam_of a z = Ok (u, v, F) -> clear_of u (sim_limit a) -> window u (sim_limit a) i0 k ->
  sim_map a z = Ok (rows k (fun _ c => nth (i0 + c) u 0), rows k (fun r _ => nth (i0 + r) u 0), rows k (fun r c => Cmod (at2 F (i0 + r) (i0 + c)) ^ 2)).
Proof.
  intros (W & P & X) B C Wi. unfold sim_map. fold (beam_of a z). rewrite B. cbn [bind].
  destruct (axes_api _ _ _ _ _ _ _ _ _ _ _ W P X B) as (<- & Lu & LF & LR & _).
  assert (Lp : length (power_pattern F) = si_resolution a) by (unfold power_pattern, map2d; rewrite map_length; exact LF).
  assert (LpR : forall row, In row (power_pattern F) -> length row = si_resolution a).
  { intros row R. unfold power_pattern, map2d in R. apply in_map_iff in R. destruct R as (r0 & <- & R0). rewrite map_length. apply LR. exact R0. }
  rewrite (trim_ok _ _ _ _ Lu Lp LpR C). rewrite <- Lu, (window_filter _ _ _ _ Wi).
  rewrite !grid_seq. f_equal. f_equal. unfold rows. apply map_ext_in. intros r Hr. apply map_ext_in. intros c Hc. apply in_seq in Hr, Hc.
  destruct Wi as (L & _). apply (power_at F _ _ (si_resolution a) LF LR); lia.
Qed.
Lemma sim_map_err a z u v F : physical a -> beam_of a z = Ok (u, v, F) -> ~ clear_of u (sim_limit a) -> sim_map a z = Err ValueError.
Proof.
  intros (W & P & X) B C. unfold sim_map. fold (beam_of a z). rewrite B. cbn [bind].
  destruct (axes_api _ _ _ _ _ _ _ _ _ _ _ W P X B) as (<- & Lu & LF & LR & _).
  assert (Lp : length (power_pattern F) = si_resolution a) by (unfold power_pattern, map2d; rewrite map_length; exact LF).
  assert (LpR : forall row, In row (power_pattern F) -> length row = si_resolution a).
  { intros row R. unfold power_pattern, map2d in R. apply in_map_iff in R. destruct R as (r0 & <- & R0). rewrite map_length. apply LR. exact R0. }
  exact (trim_err _ _ _ _ Lu Lp LpR C).
Qed.

Lemma clear_dec u lim : {clear_of u lim} + {~ clear_of u lim}.
Proof.
  destruct (Exists_dec (fun y => Rabs y = lim) u (fun y => Req_EM_T (Rabs y) lim)) as [X|X].
  - right. intros C. apply Exists_exists in X. destruct X as (y & Y & E). exact (C y Y E).
  - left. intros y Y E. apply X. apply Exists_exists. exists y. split; assumption.
Qed.

(** Noise. *)
Lemma indexed_rows {A} (f : nat -> A) k : indexed (map f (seq 0 k)) = map (fun i => (i, f i)) (seq 0 k).
Proof. unfold indexed. rewrite map_length, seq_length. rewrite <- (map_id (seq 0 k)) at 1. apply combine_map. Qed.
Lemma add_noise_rows orc noise i k f : add_noise orc noise i (rows k f) =
  rows k (fun r c => f r c + if Req_EM_T noise 0 then 0 else so_normal orc noise i r c).
Proof.
  unfold add_noise, Reqb. destruct (Req_EM_T noise 0).
  - unfold rows. apply map_ext. intros r. apply map_ext. intros c. lra.
  - unfold rows at 1. rewrite indexed_rows, map_map. apply map_ext. intros r. rewrite indexed_rows, map_map. reflexivity.
Qed.
