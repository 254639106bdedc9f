(** C06: symmetries of U, for every n >= 0 and every integer l. *)
From Coquelicot Require Import Coquelicot.
From Verif Require Import PyBase Sums PyLib MZernike PZernike SZernike PDisk PEnum PPhase.
Open Scope R_scope.

Lemma zernike_R_parity (n m : Z) : (0 <= n)%Z -> (0 <= m)%Z -> exists g, zernike_R n m = Ok g /\
  forall rho, g (- rho) = (-1) ^ Z.to_nat n * g rho.
Proof.
  intros Hn Hm. destruct (Z.ltb_spec n m) as [H|H].
  - exists (fun _ => 0). split; [apply zernike_R_small; assumption|]. intros. ring.
  - destruct (zernike_R_nat (Z.to_nat n) (Z.to_nat m) ltac:(lia)) as (g & E & Hg).
    rewrite !Z2Nat.id in E by lia. exists g; split; [exact E|]. intros rho. rewrite !Hg. apply Rsumform_neg.
    pose proof (Nat.div_mod (Z.to_nat n - Z.to_nat m) 2). lia.
Qed.

Lemma ang_pi l t : ang l (t + PI) = (-1) ^ Z.to_nat (Z.abs l) * ang l t.
Proof.
  unfold ang. set (m := Z.to_nat (Z.abs l)). replace (Z.abs l) with (Z.of_nat m) by (unfold m; lia).
  rewrite <- INR_IZR_INZ.
  assert (H : cos (INR m * (t + PI)) = (-1) ^ m * cos (INR m * t) /\ sin (INR m * (t + PI)) = (-1) ^ m * sin (INR m * t)).
  { clearbody m. induction m as [|m IH]; [cbn; rewrite !Rmult_0_l, cos_0, sin_0; lra|].
    destruct IH as [Hc Hs]. rewrite S_INR.
    replace ((INR m + 1) * (t + PI)) with (INR m * (t + PI) + (t + PI)) by ring.
    replace ((INR m + 1) * t) with (INR m * t + t) by ring.
    rewrite (cos_plus (INR m * (t + PI))), (sin_plus (INR m * (t + PI))), Hc, Hs, neg_cos, neg_sin, (cos_plus (INR m * t)), (sin_plus (INR m * t)). cbn [pow]. split; ring. }
  destruct (Z.ltb l 0); apply H.
Qed.

Lemma ang_neg l t : ang l (- t) = (if Z.ltb l 0 then -1 else 1) * ang l t.
Proof.
  unfold ang. rewrite <- Ropp_mult_distr_r. destruct (Z.ltb l 0); [rewrite sin_neg|rewrite cos_neg]; ring.
Qed.

Lemma U_int_split n l : (0 <= n)%Z -> exists r, zernike_R n (Z.abs l) = Ok r /\ exists g, zernike_U_int n l = Ok g /\
  forall rho t, g rho t = r rho * ang l t.
Proof.
  intros Hn. destruct (zernike_R_parity n (Z.abs l) Hn ltac:(lia)) as (r & E & _).
  exists r; split; [exact E|]. unfold zernike_U_int. rewrite E. cbn [bind]. unfold ang.
  destruct (Z.ltb l 0); eexists; (split; [reflexivity|]); reflexivity.
Qed.

Lemma U_symmetries n l : (0 <= n)%Z -> exists g, zernike_U (PyInt n) (PyInt l) = Ok g /\
  forall rho t,
    g rho (t + PI) = (-1) ^ Z.to_nat (Z.abs l) * g rho t /\
    g (- rho) t = (-1) ^ Z.to_nat n * g rho t /\
    g rho (- t) = (if Z.ltb l 0 then -1 else 1) * g rho t /\
    g rho (t + 2 * PI) = g rho t.
Proof.
  intros Hn. destruct (U_int_split n l Hn) as (r & E & g & Eg & Hg).
  exists g. split.
  { destruct (proj1 (U_checked (PyInt n) (PyInt l)) (conj I (conj I Hn))) as [-> _]. exact Eg. }
  intros rho t. rewrite !Hg. repeat split.
  - rewrite ang_pi. ring.
  - destruct (zernike_R_parity n (Z.abs l) Hn ltac:(lia)) as (r' & E' & Hp). rewrite E in E'. injection E' as <-.
    rewrite Hp. ring.
  - rewrite ang_neg. ring.
  - f_equal. apply ang_period.
    + rewrite cos_plus, cos_2PI, sin_2PI. ring.
    + rewrite sin_plus, cos_2PI, sin_2PI. ring.
Qed.
