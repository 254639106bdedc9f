(** Property theorems: C95 (a fit can be repeated). *)
From Coq Require Import String List ZArith Lia Lra.
From Verif Require Import PyBase PyLib Num MMath SMath MAperture MRad MCore MFs MOut SOut SFit SBest SRepro PDemo PBest2 PFit6 PFit7 PScript PRepro PRepro2.
Import ListNotations.
Open Scope R_scope.
Open Scope string_scope.
Open Scope list_scope.

(** C95. Two fits of the same three maps, up to the gain and the offset of each, with
    the same telescope and the same start, store the same results: whatever the names,
    the directories, the plots, the file systems and what was stored there before. *)
Theorem C95_repeatable orc a b s s' t t' c : file_tree s -> file_tree t -> run (fit_zpoly orc a) s = (Ok tt, s') -> run (fit_zpoly orc b) t = (Ok tt, t') ->
  free_number a s -> free_number b t -> configured a s c -> configured b t c -> same_setting a b -> recalibrated (fa_beam a) (fa_beam b) ->
  exists j k, (j <= 100)%nat /\ s (numbered (fit_dir a) (fa_name a) j) = None /\ (k <= 100)%nat /\ t (numbered (fit_dir b) (fa_name b) k) = None /\
  forall n, (1 <= n <= fa_order_max a)%nat -> (n <= fa_order_max b)%nat ->
    same_results n s' (numbered (fit_dir a) (fa_name a) j) (fa_name a) t' (numbered (fit_dir b) (fa_name b) k) (fa_name b).
Proof. exact (repeatable orc a b s s' t t' c). Qed.
Print Assumptions C95_repeatable.
(** One after the other in one file system: both results are there, side by side. *)
Theorem C95_in_sequence orc a b s s1 s2 c : file_tree s -> run (fit_zpoly orc a) s = (Ok tt, s1) -> run (fit_zpoly orc b) s1 = (Ok tt, s2) ->
  free_number a s -> free_number b s1 -> configured a s c -> configured b s1 c -> same_setting a b -> recalibrated (fa_beam a) (fa_beam b) ->
  exists j k, forall n, (1 <= n <= fa_order_max a)%nat -> (n <= fa_order_max b)%nat ->
    numbered (fit_dir a) (fa_name a) j <> numbered (fit_dir b) (fa_name b) k /\
    same_results n s2 (numbered (fit_dir a) (fa_name a) j) (fa_name a) s2 (numbered (fit_dir b) (fa_name b) k) (fa_name b).
Proof. exact (one_after_the_other orc a b s s1 s2 c). Qed.
Print Assumptions C95_in_sequence.
(** A fit that succeeded succeeds again, up to the same order or less, wherever its
    directory can be created and its figures can be drawn. *)
Theorem C95_succeeds_again orc a b s s' t c : file_tree s -> file_tree t -> run (fit_zpoly orc a) s = (Ok tt, s') -> free_number a s -> configured a s c ->
  usable (fit_dir b) t -> free_number b t -> configured b t c -> same_setting a b -> recalibrated (fa_beam a) (fa_beam b) ->
  (fa_order_max b <= fa_order_max a)%nat -> (fa_make_plots b = true -> forall n, (1 <= n <= fa_order_max b)%nat -> or_draw orc n = Ok tt) ->
  exists t', run (fit_zpoly orc b) t = (Ok tt, t').
Proof. exact (succeeds_again orc a b s s' t c). Qed.
Print Assumptions C95_succeeds_again.
(** The same maps with twice the gain and an offset, under another name, without plots,
    to a lower order, in the file system the first fit left behind. *)
Definition again : fit_args := {|
  fa_name := "again"; fa_pthto := ["w"%string]; fa_object := "3C273"; fa_date := "tomorrow"; fa_freq := 32; fa_wavel := 1 / 100; fa_d_z := [-1; 0; 1]; fa_meanel := 12;
  fa_beam := map (map (affine 2 3)) [spot_beam; spot_beam; spot_beam]; fa_u := [spot_x; spot_x; spot_x]; fa_v := [spot_y; spot_y; spot_y]; fa_order_max := 2;
  fa_illum := illum_parabolic; fa_illum_name := "parabolic"; fa_tel := demo_tel; fa_opd_name := "manual"; fa_tel_name := "manual";
  fa_resolution := 2; fa_box_factor := 1 / 10; fa_fit_previous := true; fa_config_file := None; fa_make_plots := false; fa_work_dir := None |}.
Example C95_nonvacuous : exists s1 s2, let orc := pick lazy in let a := best_args 3 in
  file_tree demo_fs /\ file_tree s1 /\ run (fit_zpoly orc a) demo_fs = (Ok tt, s1) /\ run (fit_zpoly orc again) s1 = (Ok tt, s2) /\
  free_number a demo_fs /\ free_number again s1 /\ configured a demo_fs default_config /\ configured again s1 default_config /\
  usable (fit_dir again) s1 /\ same_setting a again /\ recalibrated (fa_beam a) (fa_beam again) /\ fa_beam again <> fa_beam a.
Proof.
  destruct (pick_runs lazy 3) as [s1 R]. exists s1.
  assert (F : free_number (best_args 3) demo_fs) by (exists 0%nat; split; [lia|apply demo_numbered]).
  assert (W1 : file_tree s1) by (eapply fit_tree; [exact demo_tree|exact R]).
  destruct (one_fit _ _ _ _ demo_tree R F eq_refl eq_refl ltac:(cbn; lia)) as (U & j & Hj & Hn & Hr & Hc).
  assert (S1 : same_setting (best_args 3) again) by (repeat split).
  assert (R1 : recalibrated (fa_beam (best_args 3)) (fa_beam again)). { cbn [fa_beam again best_args map]. repeat constructor; exists 2, 3; (split; [lra|reflexivity]). }
  assert (F1 : free_number again s1).
  { exists 0%nat. split; [lia|]. rewrite Hc; [apply demo_numbered|]. intros A. destruct (numbered_related ["w"] "again" "obs" 0 j (belongs_near _ _ _ A)). discriminate. }
  assert (U1 : usable (fit_dir again) s1).
  { eapply (usable_later (fit_dir (best_args 3)) demo_fs s1); [split; [reflexivity|right; reflexivity]|exact W1|exact U|]. exists (fa_name (best_args 3)), j. apply Hr. }
  destruct (succeeds_again (pick lazy) (best_args 3) again demo_fs s1 s1 default_config demo_tree W1 R F eq_refl U1 F1 eq_refl S1 R1) as [s2 R2]; [cbn; lia|discriminate|].
  exists s2. intros orc a. repeat (split; [first [exact demo_tree|assumption|reflexivity]|]). cbn [fa_beam again a best_args map spot_beam]. unfold spot_beam, affine. cbn [map]. intros E. injection E as E. lra.
Qed.
