(** scripts/create_lookup.py: a state in which it runs. *)
From Coq Require Import String Ascii List ZArith Lia Lra.
From Verif Require Import PyBase PyLib Num MMath MAperture MFs MOut MAct MTab MAux MScript SMath SOut SFit SAct SAct2 STab SLookup PStr PFs PFit PAct PAct3 PAct4 PAct5 PAct6 PAct7 PTab PLookup PLookup2.
Import ListNotations.
Open Scope R_scope.
Open Scope string_scope.
Open Scope list_scope.
Open Scope prog_scope.

Definition sky_info (name : string) (el : R) : run_info := {|
  ri_tel_name := "effelsberg"; ri_tel_opd := "effelsberg"; ri_pr := 50; ri_name := name; ri_object := "3C84"; ri_date := "2020-01-01T00:00:00.0";
  ri_d_z := [-1; 0; 1]; ri_wavel := 1; ri_freq := 1; ri_illum := "pedestal"; ri_meanel := el; ri_resolution := 256; ri_box_factor := 5;
  ri_snr := [Fin 100; Fin 300; Fin 100] |}.
Definition sky_map : list (list num) := [[Fin 0; Fin 0; Fin 0]; [Fin 0; Fin 1; Fin 0]; [Fin 0; Fin 0; Fin 0]].
(** Three observations at three elevations, with the defocus q. *)
Definition sky_params (q : R) : list (string * R * R) :=
  [("i_amp", 1, 0); ("c_dB", -14, 0); ("q", 2, 0); ("x0", 0, 0); ("y0", 0, 0);
   ("K(0, 0)", 0, 0); ("K(1, -1)", 0, 0); ("K(1, 1)", 0, 0); ("K(2, -2)", 0, 0); ("K(2, 0)", q, 0); ("K(2, 2)", 0, 0)].
Definition sky (q : R) (z : nat -> nat -> Z) : fs := fun p => match p with
  | [] => Some Dir
  | ["out"] => Some Dir
  | ["old.dat"] => Some (File (Text (table_text z)))
  | ["out"; d] => if String.eqb d "a-000" || String.eqb d "b-000" || String.eqb d "c-000" then Some Dir else None
  | ["out"; d; f] =>
      if String.eqb d "a-000" || String.eqb d "b-000" || String.eqb d "c-000" then
        if String.eqb f "pyoof_info.yml" then
          Some (File (Info (if String.eqb d "a-000" then sky_info "a" 10 else if String.eqb d "b-000" then sky_info "b" 50 else sky_info "c" 80)))
        else if String.eqb f "phase_n2.csv" then Some (File (Csv "" (A2 sky_map)))
        else if String.eqb f "fitpar_n2.csv" then Some (File (Params (sky_params q))) else None
      else None
  | _ => None end.
Definition sky_runs : list path := [["out"; "a-000"]; ["out"; "b-000"]; ["out"; "c-000"]].
Definition sky_oracles (q : R) : lookup_oracles := {|
  lk_isot := fun _ => true; lk_sort := fun t => t; lk_solve := search [[0; 0; q]; [0; 0; 0]];
  lk_griddata := fun _ _ _ => Fin 0; lk_spline := fun _ _ m => Ok (fun _ _ => elem (Fin 0) m 0 0); lk_today := "201117"; lk_fmt := fun _ => "" |}.

Lemma sky_zero_exact q : zero_exact (lk_spline (sky_oracles q)).
Proof.
  intros x y m f F E. cbn in E. apply Ok_inj in E. subst f. intros _ _. unfold elem. destruct m as [|[|v row] m]; [reflexivity|reflexivity|]. inversion F as [|? ? F1 _]; subst. inversion F1; subst. reflexivity.
Qed.
Lemma sky_table q z : exists tab, fst (run (table_pyoof_out (lk_isot (sky_oracles q)) sky_runs 2) (sky q z)) = Ok (2%nat, tab) /\
  Forall2 (summarises (sky q z) 2) sky_runs tab /\ elevations tab = demo_elevations /\ map tr_name tab = ["a"; "b"; "c"] /\ filter selected_row tab = tab.
Proof.
  assert (S : forall r, tr_name r = "a" \/ tr_name r = "b" \/ tr_name r = "c" -> tr_snr r = [Fin 100; Fin 300; Fin 100] -> selected_row r = true).
  { intros r Hn Hs. unfold selected_row. rewrite Hs. cbn [nth ngt nlt]. unfold Rltb. destruct (Rlt_dec 200 300); [|lra]. destruct Hn as [->|[->| ->]]; reflexivity. }
  eexists. split; [reflexivity|]. split; [|split; [reflexivity|split; [reflexivity|]]].
  - apply (table_iff (fun _ => true) sky_runs 2 (sky q z) 2); [|reflexivity].
    intros p h m H. exists 3%nat. assert (E : m = sky_map).
    { unfold sky in H. repeat match type of H with match ?x with _ => _ end = _ => destruct x; try discriminate H | (if ?x then _ else _) = _ => destruct x; try discriminate H end. injection H as _ <-. reflexivity. }
    subst m. intros row [<-|[<-|[<-|[]]]]; reflexivity.
  - cbn [filter]. rewrite !S by (cbn; auto). reflexivity.
Qed.
Lemma sky_coeffs q z r K : In (tr_name r) ["a"; "b"; "c"] -> (row_coeffs (sky q z) ["out"] 2 6 r K <-> K = [0; 0; 0; 0; q; 0]).
Proof.
  intros Hn. split.
  - intros (rows & E & H). unfold fitpar_rows in E. cbn in Hn. destruct Hn as [Hn|[Hn|[Hn|[]]]]; rewrite <- Hn in E; cbn in E; injection E as <-; (destruct H as [[-> _]|(x & _ & E & _)]; [reflexivity|discriminate E]).
  - intros ->. exists (sky_params q). cbn in Hn. split; [|left; split; reflexivity]. unfold fitpar_rows. destruct Hn as [<-|[<-|[<-|[]]]]; reflexivity.
Qed.
Lemma sky_runs_ok q z : exists s', run (create_lookup (sky_oracles q) (demo_act 2 3) sky_runs ["out"] ["old.dat"] ["new"]) (sky q z) = (Ok tt, s').
Proof.
  destruct (sky_table q z) as (tab & E & F & El & En & Fi).
  apply (completes (sky_oracles q) (demo_act 2 3) sky_runs ["out"] ["old.dat"] ["new"] (sky q z) z tab).
  - cbn. lra.
  - cbn. lia.
  - cbn. lia.
  - cbn. lra.
  - reflexivity.
  - exact F.
  - reflexivity.
  - change (filter selected_row tab <> []). rewrite Fi. intros ->. discriminate En.
  - change (lk_sort (sky_oracles q) tab) with tab. rewrite Fi. intros r Hr. exists [0; 0; 0; 0; q; 0]. apply (sky_coeffs q z r); [rewrite <- En; apply in_map; exact Hr|reflexivity].
  - change (lk_sort (sky_oracles q) tab) with tab. rewrite Fi, El. intros i col Hi Hc. change (ac_N_K (demo_act 2 3)) with 6%nat in *. change (ac_order (demo_act 2 3)) with 2%nat in *.
    assert (Ec : col = repeat (nth i [0; 0; 0; 0; q; 0] 0) 3).
    { assert (L : length tab = 3%nat) by (apply (f_equal (@length string)) in En; rewrite map_length in En; exact En).
      assert (A : Forall (fun x => x = nth i [0; 0; 0; 0; q; 0] 0) col).
      { assert (N : forall r, In r tab -> In (tr_name r) ["a"; "b"; "c"]) by (intros r Hr; rewrite <- En; apply in_map; exact Hr). clear -Hc N.
        induction Hc as [|r x t c (K & HK & ->) F IH]; constructor; [|apply IH; intros; apply N; right; assumption]. apply (sky_coeffs q z r K) in HK; [subst; reflexivity|apply N; left; reflexivity]. }
      pose proof (Forall2_len _ _ _ Hc) as Lc. rewrite L in Lc. destruct col as [|x [|y [|w [|]]]]; try discriminate Lc. inversion A as [|? ? -> A1]; subst. inversion A1 as [|? ? -> A2]; subst. inversion A2 as [|? ? -> A3]; subst. reflexivity. }
    assert (Z : all_zero (residual_grav col demo_elevations [0; 0; nth i [0; 0; 0; 0; q; 0] 0])).
    { apply residual_grav_zero. rewrite Ec. cbn [mapM demo_elevations repeat bind]. rewrite !grav_ok. cbn [bind]. repeat f_equal; ring. }
    destruct (search_finds [[0; 0; q]; [0; 0; 0]] (residual_grav col demo_elevations) [1 / 10; 1 / 10; 1 / 10] [0; 0; nth i [0; 0; 0; 0; q; 0] 0]) as (x & Ex & Lx); [|reflexivity|exact Z|exists x; split; [exact Ex|exact Lx]].
    do 6 (destruct i as [|i]; [cbn; tauto|]). lia.
  - intros x m. eexists. reflexivity.
  - right. exists [], "new". split; [reflexivity|]. split; reflexivity.
  - intros f Hf. cbn. discriminate.
Qed.
