(** Property theorems: C112 (the phase map is the phase of the aperture field). *)
From Coq Require Import String List ZArith Lia Lra.
From Verif Require Import PyBase PyLib Num MMath SMath MAperture MTel MRad MCore MFs MOut SOut SFit SField PDemo PBest2 PPhase PAper PField.
From Coquelicot Require Import Complex.
Import ListNotations.
Open Scope R_scope.
Open Scope string_scope.
Open Scope list_scope.

(** C112. At every pixel inside the dish the aperture field is the field of the perfect
    telescope, turned by the phase of that pixel and by what the switches left out. *)
Theorem C112_field illum tel I K d wavel piston tilt N n Ea xs ys phi : (2 * length K = (n + 1) * (n + 2))%nat -> (1 <= n)%nat -> 0 < tel_pr tel -> illum I (tel_pr tel) = Ok Ea ->
  phase K (tel_pr tel) piston tilt N = Ok (xs, ys, phi) ->
  exists E E0, aperture illum tel I K d wavel = Ok E /\ aperture illum tel I (perfect K) d wavel = Ok E0 /\
  forall i j, (i < N)%nat -> (j < N)%nat -> let x := nth i xs 0 in let y := nth j ys 0 in x ^ 2 + y ^ 2 <= tel_pr tel ^ 2 ->
    E x y = Cmult (E0 x y) (cis (nth i (nth j phi []) 0 + 2 * PI * left_out piston tilt K (tel_pr tel) x y)).
Proof. exact (field_phase illum tel I K d wavel piston tilt N n Ea xs ys phi). Qed.
Print Assumptions C112_field.
(** Where the perfect telescope has a field, the field determines the phase up to whole
    turns, and no further: two surfaces have the same field there if and only if their
    phases differ by whole turns. *)
Theorem C112_turns illum tel I K K' d wavel N n n' E E0 xs ys phi xs' ys' phi' i j : (2 * length K = (n + 1) * (n + 2))%nat -> (1 <= n)%nat -> (2 * length K' = (n' + 1) * (n' + 2))%nat -> (1 <= n')%nat ->
  0 < tel_pr tel -> aperture illum tel I K d wavel = Ok E -> aperture illum tel I (perfect K) d wavel = Ok E0 ->
  phase K (tel_pr tel) true true N = Ok (xs, ys, phi) -> phase K' (tel_pr tel) true true N = Ok (xs', ys', phi') ->
  (i < N)%nat -> (j < N)%nat -> let x := nth i xs 0 in let y := nth j ys 0 in x ^ 2 + y ^ 2 <= tel_pr tel ^ 2 -> E0 x y <> RtoC 0 ->
  (exists E', aperture illum tel I K' d wavel = Ok E' /\ E' x y = E x y) <-> exists k : Z, nth i (nth j phi' []) 0 = nth i (nth j phi []) 0 + 2 * PI * IZR k.
Proof. exact (same_field illum tel I K K' d wavel N n n' E E0 xs ys phi xs' ys' phi' i j). Qed.
Print Assumptions C112_turns.
(** What a fit stores: for every order, the aperture field of the stored parameters is the
    one of the perfect telescope, turned by the stored phase map and by the stored piston
    and tilt, which the map leaves out. *)
Theorem C112_stored orc a s s' c : file_tree s -> run (fit_zpoly orc a) s = (Ok tt, s') -> free_number a s -> configured a s c -> 0 < tel_pr (fa_tel a) ->
  exists j, (j <= 100)%nat /\ s (numbered (fit_dir a) (fa_name a) j) = None /\
  forall n, (1 <= n <= fa_order_max a)%nat -> exists rows ph,
    fitpar_rows s' (numbered (fit_dir a) (fa_name a) j) n rows /\
    csv_file s' (numbered (fit_dir a) (fa_name a) j) ("phase_n" ^^ dec n ^^ ".csv") ("Phase-error radians " ^^ fa_name a) (A2 (map (map Fin) ph)) /\
    let I := firstn 5 (map parfit rows) in let K := skipn 5 (map parfit rows) in let pr := tel_pr (fa_tel a) in
    forall Ea d wavel, fa_illum a I pr = Ok Ea -> exists E E0,
      aperture (fa_illum a) (fa_tel a) I K d wavel = Ok E /\ aperture (fa_illum a) (fa_tel a) I (perfect K) d wavel = Ok E0 /\
      forall r q, (r < 1000)%nat -> (q < 1000)%nat -> let x := nth q (linspace (- pr) pr 1000) 0 in let y := nth r (linspace (- pr) pr 1000) 0 in
        x ^ 2 + y ^ 2 <= pr ^ 2 -> E x y = Cmult (E0 x y) (cis (nth q (nth r ph []) 0 + 2 * PI * (nth 0 K 0 + (nth 1 K 0 * y + nth 2 K 0 * x) / pr))).
Proof. exact (stored_field orc a s s' c). Qed.
Print Assumptions C112_stored.

(** Two surfaces two wavelengths apart, seen at (5 m, 5 m) of a 50 m dish. *)
Example C112_nonvacuous : let I := [1; - (29 / 2); 7 / 5; 0; 0] in let K := [0; 0; 0; 1 / 10; 1 / 10; 1 / 10] in let K' := [2; 0; 0; 1 / 10; 1 / 10; 1 / 10] in
  exists E E0 Ea phi phi', let l := linspace (- (50)) 50 21 in let x := nth 11 l 0 in
  illum_parabolic I (tel_pr demo_tel) = Ok Ea /\ aperture illum_parabolic demo_tel I K 1 (1 / 100) = Ok E /\ aperture illum_parabolic demo_tel I (perfect K) 1 (1 / 100) = Ok E0 /\
  phase K (tel_pr demo_tel) true true 21 = Ok (l, l, phi) /\ phase K' (tel_pr demo_tel) true true 21 = Ok (l, l, phi') /\
  x = 5 /\ x ^ 2 + x ^ 2 <= tel_pr demo_tel ^ 2 /\ E0 x x <> RtoC 0.
Proof.
  intros I K K'. destruct (spot_aperture (1 / 10) 1) as (E & c0 & HE & VE). destruct (spot_aperture 0 1) as (E0 & c1 & HE0 & VE0).
  assert (exists Ea, illum_parabolic I (tel_pr demo_tel) = Ok Ea) as [Ea HI] by (eexists; reflexivity).
  destruct (phase_ok K 50 true true 21 2 eq_refl ltac:(lia) ltac:(lra)) as (phi & HP & _). destruct (phase_ok K' 50 true true 21 2 eq_refl ltac:(lia) ltac:(lra)) as (phi' & HP' & _).
  exists E, E0, Ea, phi, phi'. intros l x.
  assert (X : x = 5). { unfold x, l. rewrite linspace_nth by lia. rewrite !INR_IZR_INZ. cbn [Z.of_nat Pos.of_succ_nat Pos.succ Nat.sub]. lra. }
  assert (NZ : E0 x x <> RtoC 0).
  { rewrite VE0 by (rewrite X; reflexivity). apply Cmod_gt_0. rewrite Cmod_mult, Cmod_R, cis_mod, Rmult_1_r. apply Rabs_pos_lt. pose proof spot_A_pos. lra. }
  split; [exact HI|]. split; [exact HE|]. split; [exact HE0|]. split; [exact HP|]. split; [exact HP'|]. split; [exact X|]. split; [rewrite X; cbn; lra|]. exact NZ.
Qed.
(** And a fit. *)
Example C112_stored_nonvacuous : exists s', let a := best_args 3 in file_tree demo_fs /\ run (fit_zpoly (pick lazy) a) demo_fs = (Ok tt, s') /\ free_number a demo_fs /\ configured a demo_fs default_config /\
  0 < tel_pr (fa_tel a) /\ forall p, length p = 5%nat -> exists Ea, fa_illum a p (tel_pr (fa_tel a)) = Ok Ea.
Proof.
  destruct (pick_runs lazy 3) as [s' R]. exists s'. intros a. split; [exact demo_tree|]. split; [exact R|]. split; [exists 0%nat; split; [lia|apply demo_numbered]|]. split; [reflexivity|]. split; [cbn; lra|].
  intros p Hp. destruct p as [|p0 [|p1 [|p2 [|p3 [|p4 [|? ?]]]]]]; try discriminate Hp. eexists. reflexivity.
Qed.
