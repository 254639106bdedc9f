(** Proof that plot_fit_path draws its figures from the output of a fit. *)
From Coq Require Import String Ascii List Sorted Lia Lra.
From Verif Require Import PyBase PyLib Num MZernike MMath MAperture MRad MCore MFs MAct MAux MOut MPlot SZernike SMath SAct SOut SFit SPlot
  PNorm PAct PPhase PRad PFs PFit PFit4 PFit5 PFit6 PFit7 PFit9 PConc2 PAper PTab PPlot PPlot2 PPlot3 PPlot4 PPlot5.
From Coquelicot Require Import Complex.
Import ListNotations.
Open Scope R_scope.
Open Scope string_scope.
Open Scope list_scope.

Lemma two_in (p : list nat) q1 q2 : In q1 p -> In q2 p -> q1 <> q2 -> (2 <= length p)%nat.
Proof. destruct p as [|x [|y p]]; cbn; [intros []| |lia]. intros [<-|[]] [<-|[]] H. contradiction. Qed.
Lemma rect3 {A} m (l : list (list A)) : SAct.rect 3 m l -> exists a b c, l = [a; b; c] /\ length a = m /\ length b = m /\ length c = m.
Proof.
  intros [L H]. destruct l as [|a [|b [|c [|? ?]]]]; try discriminate L. rewrite Forall_forall in H. exists a, b, c. split; [reflexivity|].
  split; [|split]; apply H; cbn; auto.
Qed.
Lemma len_ne {A} (l : list A) m : length l = m -> (2 <= m)%nat -> l <> [].
Proof. intros <- H ->. cbn in H. lia. Qed.
Lemma fins_rect r c (m : list (list R)) : SAct.rect r c m -> SAct.rect r c (fins m).
Proof.
  intros [L H]. split; [unfold fins, map2d; rewrite map_length; exact L|]. rewrite Forall_forall in *. intros x Hx. apply in_map_iff in Hx. destruct Hx as (y & <- & Hy). rewrite map_length. apply H, Hy.
Qed.

Section Returns.
Variables (gd : list R -> list R -> list num -> list R -> list R -> list (list num)) (pt : printers) (strict : bool).
Variables (orc : oracle) (a : fit_args) (s s' : fs) (c : config).
Variables (illum : list R -> R -> res (R -> R -> R)) (tel : telgeo) (g : angle_unit) (plim : option (R * R * (R * R))) (save : bool) (m : nat).
Hypotheses (W : file_tree s) (E : run (fit_zpoly orc a) s = (Ok tt, s')) (F : free_number a s) (CF : configured a s c) (VC : valid_config c).
Hypothesis GD : forall u v b x y, rect (length y) (length x) (gd u v b x y).
Hypotheses (M : (2 <= m)%nat) (HB : rect 3 m (fa_beam a)) (HU : rect 3 m (fa_u a)) (HV : rect 3 m (fa_v a)).
Hypothesis HVN : exists x y, In x (nth 0 (fa_v a) []) /\ In y (nth 0 (fa_v a) []) /\ x <> y.
Hypotheses (HR : (2 <= fa_resolution a)%nat) (Hw : 0 < fa_wavel a) (Hbf : 0 < fa_box_factor a) (Hpr : 0 < tel_pr (fa_tel a)) (Htp : 0 < tel_pr tel) (Hg : 0 < au_per_rad g).
Hypothesis HZ : (3 <= length (fa_d_z a))%nat.
Hypothesis HI : forall I, length I = 5%nat -> exists Ea, illum I (tel_pr tel) = Ok Ea.
Hypothesis HP : match plim with Some (_, (v0, v1)) => v0 <> v1 | None => True end.
Hypothesis HL : forall f x0 lo hi out, or_lsq orc f x0 lo hi = Ok out -> (6 <= length (lo_fun out))%nat.
Hypothesis HC : forall r J k cov cor, or_comat orc r J k = Ok (cov, cor) -> rect k k cov /\ rect k k cor.
Hypothesis HE : exists q1 q2, (q1 < q2 < 8)%nat /\ ~ In (Z.of_nat q1) (cf_excluded c) /\ ~ In (Z.of_nat q2) (cf_excluded c).

Lemma draw_returns : exists j, (j <= 100)%nat /\ s (numbered (fit_dir a) (fa_name a) j) = None /\
  forall n, (1 <= n <= fa_order_max a)%nat ->
    exists figs, fst (run (draw_fit_path gd pt strict (numbered (fit_dir a) (fa_name a) j) n illum tel g plim save) s') = Ok figs /\
      length figs = if Nat.eqb n 1 then 6%nat else 5%nat.
Proof.
  destruct (stored_after orc a s s' c W E F CF) as (j & snrs & Hj & Hn & Hs & H). cbv zeta in H. exists j. split; [exact Hj|]. split; [exact Hn|].
  intros n Hn1. destruct (H n Hn1) as (rows & out & i & r & cov & cor & p & A1 & A2 & A3 & A4 & A5 & A6 & A7 & A8 & A9 & A10).
  assert (Hp : (2 <= length p)%nat).
  { destruct HE as (q1 & q2 & Q & N1 & N2). destruct VC as (_ & _ & _ & _ & ex & Xe & _ & Xl). destruct A7 as [_ A7].
    assert (C8 : (3 <= coeffs n)%nat).
    { unfold coeffs. apply Nat.div_le_lower_bound; [lia|]. nia. }
    assert (NG : forall q, (q < 8)%nat -> ~ In (Z.of_nat q) (cf_excluded c) -> In q p).
    { intros q Hq Nq. apply A7. split; [lia|]. split; [exact Nq|]. rewrite Xe. intros X. apply in_map_iff in X. destruct X as (e & Ez & _). lia. }
    apply (two_in p q1 q2); [apply NG; [lia|exact N1]|apply NG; [lia|exact N2]|lia]. }
  destruct (HC _ _ _ _ _ A8) as [RC RR].
  assert (LF : (6 <= length (lo_fun out))%nat) by (destruct A2 as (x0 & lo & hi & _ & _ & _ & X); exact (HL _ _ _ _ _ X)).
  destruct (rect3 _ _ HB) as (b0 & b1 & b2 & EB & B0 & B1 & B2). destruct (rect3 _ _ HU) as (u0 & u1 & u2 & EU & U0 & U1 & U2). destruct (rect3 _ _ HV) as (v0 & v1 & v2 & EV & V0 & V1 & V2).
  destruct r as [|r0 [|r1 [|r2 [|? ?]]]]; try discriminate A5.
  assert (L0 : (2 <= length r0)%nat) by (specialize (A6 r0 (or_introl eq_refl)); lia).
  assert (L1 : (2 <= length r1)%nat) by (specialize (A6 r1 (or_intror (or_introl eq_refl))); lia).
  assert (L2 : (2 <= length r2)%nat) by (specialize (A6 r2 (or_intror (or_intror (or_introl eq_refl)))); lia).
  destruct A3 as (D1 & D2 & D3 & D4 & D5 & D6 & D7 & D8 & D9 & D10 & D11 & D12 & D13 & D14).
  destruct (fa_d_z a) as [|d0 [|d1 [|d2 ds]]] eqn:EZ; try (cbn in HZ; lia).
  set (params := map parfit rows) in *. assert (LP : length params = (5 + coeffs n)%nat) by (unfold params; now rewrite map_length).
  assert (LK : (2 * length (skipn 5 params) = (n + 1) * (n + 2))%nat) by (rewrite skipn_length, LP; pose proof (n_coeff_double n) as X; unfold n_coeff in X; unfold coeffs; lia).
  assert (MM : forall (A : Type) (x y z : list A) k, length x = k -> (2 <= k)%nat -> matrix2 [x; y; z]) by (intros A x y z k Hx Hk; split; [cbn; lia|cbn; rewrite Hx; exact Hk]).
  assert (NC : cov <> [] /\ cor <> []) by (destruct RC as [X _], RR as [Y _]; split; intros ->; cbn in *; lia).
  assert (B_M : matrix2 (fa_beam a)) by (rewrite EB; exact (MM _ _ _ _ _ B0 M)).
  assert (U_M : matrix2 (fa_u a)) by (rewrite EU; exact (MM _ _ _ _ _ U0 M)).
  assert (V_M : matrix2 (fa_v a)) by (rewrite EV; exact (MM _ _ _ _ _ V0 M)).
  assert (R_M : matrix2 [r0; r1; r2]) by (exact (MM _ _ _ _ _ eq_refl L0)).
  destruct (draw_spec gd pt strict _ n illum tel g plim save s' _ _ _ _ _ _ _ _ A9 A10 B_M (matrix2_fins _ R_M) U_M V_M (matrix2_head _ _ Hp (proj1 NC)) (matrix2_head _ _ Hp (proj2 NC))) as (S1 & _).
  cut (exists figs, figures_of gd pt strict illum tel g plim n params i (fa_beam a) (fins [r0; r1; r2]) (fa_u a) (fa_v a) (fins (map INR p :: cov)) (fins (map INR p :: cor)) figs /\
         length figs = if Nat.eqb n 1 then 6%nat else 5%nat).
  { intros (figs & X & Y). exists figs. split; [apply S1, X|exact Y]. }
  unfold figures_of. cbv zeta.
  assert (VN : exists x y, In x v0 /\ In y v0 /\ x <> y) by (rewrite EV in HVN; exact HVN).
  assert (PD : forall q0 q1 q2 t md, q0 <> [] -> q1 <> [] -> q2 <> [] -> exists f, plot_beam_data gd (pt_cm pt) (fa_u a) (fa_v a) [q0; q1; q2] (ri_d_z i) (ri_resolution i) g t md = Ok f).
  { intros q0 q1 q2 t md Q0 Q1 Q2. rewrite EU, EV, D4, D12.
    apply plot_beam_data_ok; auto; try (eapply len_ne; eassumption). }
  destruct (PD b0 b1 b2 (ri_object i ^^ " observed power pattern $\alpha=" ^^ pt_el pt (ri_meanel i) ^^ "$ deg") false) as (f_obs & P1); try (eapply len_ne; eassumption).
  assert (RN : forall r : list R, (2 <= length r)%nat -> map Fin r <> []) by (intros [|? ?]; cbn; [lia|discriminate]).
  destruct (PD (map Fin r0) (map Fin r1) (map Fin r2) (ri_object i ^^ " residual $n=" ^^ dec n ^^ "$") true) as (f_res & P4); auto.
  assert (RP : forall d, exists x, radiation_pattern illum tel (firstn 5 params) (skipn 5 params) d (fa_wavel a) (fa_resolution a) (fa_box_factor a) = Ok x).
  { intros d. destruct (HI (firstn 5 params)) as (Ea & HEa); [rewrite firstn_length, LP; lia|].
    destruct (aperture_ok illum tel (firstn 5 params) (skipn 5 params) d (fa_wavel a) n Ea LK HEa) as (E0 & EE & _).
    rewrite rad_unfold by exact HR. rewrite EE. cbn [bind]. eexists. reflexivity. }
  destruct (plot_beam_three (pt_cm pt) (firstn 5 params) (skipn 5 params) (fa_wavel a) illum tel (fa_resolution a) (fa_box_factor a) g Hw Htp Hbf Hg d0 d1 d2 ds plim
     (ri_object i ^^ " fit power pattern  $n=" ^^ dec n ^^ "$ $\alpha=" ^^ pt_el pt (ri_meanel i) ^^ "$ degrees") (fun d _ => RP d)) as (lims & Y1 & Y2 & _ & Y3).
  assert (VL : fst (snd lims) <> snd (snd lims)).
  { destruct plim as [[ul [vl0 vl1]]|]; [|exact (Y2 eq_refl)]. cbn in Y1. subst lims. exact HP. }
  destruct (Y3 VL) as (size & p0 & p1 & p2 & P2 & _).
  destruct (plot_phase_spec (skipn 5 params) (tel_pr (fa_tel a)) false false n
     (ri_object i ^^ " phase-error $d_z=\pm " ^^ pt_cm pt d2 ^^ "$ cm $n=" ^^ dec n ^^ "$ $\alpha=" ^^ pt_el pt (ri_meanel i) ^^ "$ deg") LK ltac:(lia) Hpr) as (phi & pn & _ & P3 & _).
  assert (FP : Forall (fun q => (q < 5 + n_coeff n)%nat) p).
  { apply Forall_forall. intros q Hq. apply A7 in Hq. destruct Hq as (Hq & _). rewrite A1 in Hq. exact Hq. }
  destruct (plot_variance_diag strict n p (fins cov) (length p) "$\sigma_{ij}^2$" (ri_object i ^^ " variance-covariance matrix $n=" ^^ dec n ^^ "$") ltac:(lia) eq_refl (fins_rect _ _ _ RC) FP) as (x1 & x2 & pn1 & _ & _ & P5 & _).
  destruct (plot_variance_diag strict n p (fins cor) (length p) "$\rho_{ij}$" (ri_object i ^^ " correlation matrix $n=" ^^ dec n ^^ "$") ltac:(lia) eq_refl (fins_rect _ _ _ RR) FP) as (x3 & x4 & pn2 & _ & _ & P6 & _).
  eexists. split.
  - exists f_obs. eexists _, _, f_res, _, _, d2. split; [reflexivity|]. split; [intros _; rewrite EB; exact P1|]. split; [rewrite D4, D5, D12, D13; exact P2|].
    split; [rewrite D4; reflexivity|]. split; [rewrite D11; exact P3|]. split; [exact P4|]. split; [exact P5|exact P6].
  - destruct (Nat.eqb n 1); reflexivity.
Qed.
End Returns.
