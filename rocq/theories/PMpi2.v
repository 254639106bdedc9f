(** Every schedule can be continued until all processes have ended; a concrete
    batch of observations. *)
From Coq Require Import String Ascii List Lia Lra FunctionalExtensionality.
From Verif Require Import PyBase PyLib Num MZernike MMath MAperture MTel MRad MCore MFs MOut MAct MAux SAux SOut SFit MTab MScript SScript PFs PStr PFit PFit2 PFit3 PFit4 PFit5 PFit6 PFit7 PFit8 PFit9 PConc PCrash PAux PConc2 PDemo PScript PMpi.
Import ListNotations.
Open Scope R_scope.
Open Scope string_scope.
Open Scope list_scope.
Open Scope prog_scope.

Lemma interleave_app {A} l m (ps : list (prog A)) s : interleave_all (l ++ m) ps s = let '(ps1, s1) := interleave_all l ps s in interleave_all m ps1 s1.
Proof.
  revert ps s. induction l as [|i t IH]; intros ps s; [reflexivity|]. cbn [app interleave_all]. destruct (nth_error ps i) as [p|]; [|apply IH].
  destruct (steps 1 p s) as [p' s']. apply IH.
Qed.
Lemma finish_one {A} (p : prog A) : forall i ps s, nth_error ps i = Some p ->
  exists n ps' s', interleave_all (repeat i n) ps s = (ps', s') /\ length ps' = length ps /\
    (exists p', nth_error ps' i = Some p' /\ finished p' <> None) /\ forall j, j <> i -> nth_error ps' j = nth_error ps j.
Proof.
  induction p as [a|e|X o k IH]; intros i ps s Hi.
  - exists 0%nat, ps, s. split; [reflexivity|]. split; [reflexivity|]. split; [|reflexivity]. exists (Ret a). split; [exact Hi|discriminate].
  - exists 0%nat, ps, s. split; [reflexivity|]. split; [reflexivity|]. split; [|reflexivity]. exists (Raise e). split; [exact Hi|discriminate].
  - destruct (IH (fst (exec o s)) i (set_nth i (k (fst (exec o s))) ps) (snd (exec o s))) as (n & ps' & s' & H1 & H2 & H3 & H4).
    { rewrite nth_error_set, Nat.eqb_refl, Hi. reflexivity. }
    exists (S n), ps', s'. split; [|split; [|split]].
    + cbn [repeat interleave_all]. rewrite Hi, steps1. exact H1.
    + rewrite H2. apply set_nth_length.
    + exact H3.
    + intros j Hj. rewrite H4 by exact Hj. rewrite nth_error_set. destruct (Nat.eqb_spec i j); [congruence|reflexivity].
Qed.
Lemma finish_all {A} (ps : list (prog A)) s : exists more ps' s', interleave_all more ps s = (ps', s') /\ length ps' = length ps /\ forall p, In p ps' -> finished p <> None.
Proof.
  assert (X : forall k, (k <= length ps)%nat -> exists more ps' s', interleave_all more ps s = (ps', s') /\ length ps' = length ps /\
    forall i p, (i < k)%nat -> nth_error ps' i = Some p -> finished p <> None).
  { induction k as [|k IH]; intros Hk; [exists [], ps, s; repeat split; intros i p Hi; lia|].
    destruct (IH ltac:(lia)) as (more & ps1 & s1 & H1 & H2 & H3).
    destruct (nth_error ps1 k) as [p|] eqn:E; [|apply nth_error_None in E; lia].
    destruct (finish_one p k ps1 s1 E) as (n & ps2 & s2 & G1 & G2 & (p' & G3 & G4) & G5).
    exists (more ++ repeat k n), ps2, s2. split; [rewrite interleave_app, H1; exact G1|]. split; [congruence|].
    intros i q Hi Hq. destruct (Nat.eq_dec i k) as [->|Hne]; [congruence|]. rewrite G5 in Hq by exact Hne. eapply H3; [|exact Hq]. lia. }
  destruct (X (length ps) (le_n _)) as (more & ps' & s' & H1 & H2 & H3). exists more, ps', s'. split; [exact H1|]. split; [exact H2|].
  intros p Hp. destruct (In_nth_error _ _ Hp) as [i Hi]. eapply H3; [|exact Hi]. rewrite <- H2. apply nth_error_Some. congruence.
Qed.
Lemma section_member {A} (l : list A) k i x : (0 < k)%nat -> In x (nth i (array_split l k) []) -> In x l.
Proof.
  intros Hk H. destruct (Nat.lt_ge_cases i (length (array_split l k))) as [Hl|Hl]; [|rewrite nth_overflow in H by exact Hl; destruct H].
  rewrite <- (split_concat l k Hk). apply in_concat. eexists. split; [apply nth_In, Hl|exact H].
Qed.

Lemma mpi_completes orc sc cwd files stems size il s sched :
  (0 < size)%nat -> wf s -> usable (sc_work_dir sc) s -> (1 <= sc_order_max sc)%nat -> sc_setups sc <> [] -> files <> [] -> input_files cwd s files stems ->
  (forall f, In f files -> ~ below (sc_work_dir sc ++ ["pyoof_out"]) (resolve cwd f)) -> room sc stems s -> NoDup stems ->
  sc_illum sc = Ok il -> cooperative orc -> (forall su, In su (sc_setups sc) -> 0 < tel_pr (su_tel su)) ->
  (forall f, In f files -> exists ob, observed cwd s f ob /\ fittable ob) ->
  exists more ps s', interleave_all (sched ++ more) (mpi_ranks orc sc cwd files size) s = (ps, s') /\
    length ps = size /\ (forall p, In p ps -> finished p = Some (Ok tt)) /\ all_stored orc sc cwd files s s'.
Proof.
  intros Hs W U HO Hset Hfil HI Hout HR ND Hil C Hp Hobs.
  destruct (interleave_all sched (mpi_ranks orc sc cwd files size) s) as [ps1 s1] eqn:E1.
  destruct (finish_all ps1 s1) as (more & ps & s' & H1 & _ & H3). exists more, ps, s'.
  assert (E : interleave_all (sched ++ more) (mpi_ranks orc sc cwd files size) s = (ps, s')) by (rewrite interleave_app, E1; exact H1).
  destruct (mpi_solo orc sc cwd files stems size s Hs W U HO HI Hout HR ND _ ps s' E) as (L & _ & _ & Hsolo).
  assert (Hfin : forall p, In p ps -> finished p = Some (Ok tt)).
  { intros p Hin. destruct (In_nth_error _ _ Hin) as [i Hi]. destruct (finished p) as [r|] eqn:Ef; [|exfalso; exact (H3 p Hin Ef)].
    destruct (Hsolo i p r Hi Ef) as [R1 _]. rewrite R1. f_equal.
    assert (Hl : (i < size)%nat) by (rewrite <- L; apply nth_error_Some; congruence).
    destruct (section_facts sc cwd files stems size s Hs HO HI HR i Hl) as (F & R & Inc).
    destruct (batch_completes orc sc cwd (nth i (array_split files size) []) (nth i (array_split stems size) []) il s) as [t Ht]; try assumption.
    - split; [exact F|]. intros f Hf. apply HI, Inc, Hf.
    - intros f Hf. apply Hobs, Inc, Hf.
    - rewrite Ht. reflexivity. }
  split; [exact E|]. split; [exact L|]. split; [exact Hfin|]. exact (mpi_all orc sc cwd files stems size s _ ps s' Hs W U HO Hset Hfil HI Hout HR ND E Hfin).
Qed.

(** ** A concrete batch: three observations, an empty work directory. *)
Definition scan_file : fits_file := {|
  ff_primary := [("FREQ", HNum 32); ("MEANEL", HNum 45); ("OBJECT", HStr "3C84"); ("DATE_OBS", HStr "2026-11-17")];
  ff_tables := [ {| th_name := "map"; th_header := [("DZ", HNum 0)]; th_cols := [("fnu", [Fin 5]); ("DX", [Fin 1]); ("DY", [Fin 4])] |};
                 {| th_name := "map"; th_header := [("DZ", HNum 5)]; th_cols := [("fnu", [Fin 2]); ("DX", [Fin 2]); ("DY", [Fin 5])] |};
                 {| th_name := "map"; th_header := [("DZ", HNum (-5))]; th_cols := [("fnu", [Fin 3]); ("DX", [Fin 3]); ("DY", [Fin 6])] |} ] |}.
Definition script_dirs : list path := [[]; ["w"]; ["d"]].
Definition script_files : list path := [["d"; "a.fits"]; ["d"; "b.fits"]; ["d"; "c.fits"]].
Definition script_fs : fs := fun q => if in_dec path_eq_dec q script_dirs then Some Dir else if in_dec path_eq_dec q script_files then Some (File (Fits scan_file)) else None.
Definition script_inputs : list string := ["/d/a.fits"; "d/b.fits"; "/d/c.fits"].
Lemma script_tree : file_tree script_fs.
Proof.
  split; [reflexivity|]. intros p c H. unfold script_fs in *. destruct (in_dec path_eq_dec p script_dirs) as [_|N]; [reflexivity|]. exfalso.
  assert (X : In p [[]; []; []; ["d"]; ["d"]; ["d"]]).
  { destruct (in_dec path_eq_dec (p ++ [c]) script_dirs) as [I|_].
    - cbn [In script_dirs] in I. destruct I as [I|[I|[I|[]]]].
      + destruct p; discriminate I.
      + change ["w"] with ([] ++ ["w"]) in I. apply app_inj_tail in I. destruct I as [<- _]. cbn. auto.
      + change ["d"] with ([] ++ ["d"]) in I. apply app_inj_tail in I. destruct I as [<- _]. cbn. auto.
    - destruct (in_dec path_eq_dec (p ++ [c]) script_files) as [I|]; [|congruence]. cbn [In script_files] in I. destruct I as [I|[I|[I|[]]]].
      + change ["d"; "a.fits"] with (["d"] ++ ["a.fits"]) in I. apply app_inj_tail in I. destruct I as [<- _]. cbn. auto.
      + change ["d"; "b.fits"] with (["d"] ++ ["b.fits"]) in I. apply app_inj_tail in I. destruct I as [<- _]. cbn. auto.
      + change ["d"; "c.fits"] with (["d"] ++ ["c.fits"]) in I. apply app_inj_tail in I. destruct I as [<- _]. cbn. auto 10. }
  apply N. cbn [In] in X. cbn [In script_dirs]. destruct X as [X|[X|[X|[X|[X|[X|[]]]]]]]; auto.
Qed.
Lemma script_named : input_files [] script_fs script_inputs ["a"; "b"; "c"].
Proof.
  split.
  - assert (X : forall dir stem, dir ^^ stem ^^ ".fits" = dir ^^ stem ^^ ".fits") by reflexivity.
    repeat constructor.
    + exists "/d/". split; [reflexivity|]. split; [right; exists "/d"; reflexivity|]. split; [cbn; intuition discriminate|]. exists "a"%char. split; [left; reflexivity|discriminate].
    + exists "d/". split; [reflexivity|]. split; [right; exists "d"; reflexivity|]. split; [cbn; intuition discriminate|]. exists "b"%char. split; [left; reflexivity|discriminate].
    + exists "/d/". split; [reflexivity|]. split; [right; exists "/d"; reflexivity|]. split; [cbn; intuition discriminate|]. exists "c"%char. split; [left; reflexivity|discriminate].
  - intros f [<-|[<-|[<-|[]]]]; discriminate.
Qed.
Lemma script_numbered name j : script_fs (numbered ["w"] name j) = None.
Proof.
  unfold script_fs. destruct (in_dec _ _ _) as [H|_].
  - exfalso. cbn [In script_dirs] in H. destruct H as [H|[H|[H|[]]]]; apply (f_equal (@length _)) in H; rewrite numbered_length in H; discriminate H.
  - destruct (in_dec _ _ _) as [H|_]; [|reflexivity]. exfalso. cbn [In script_files] in H. destruct H as [H|[H|[H|[]]]]; apply (f_equal (@length _)) in H; rewrite numbered_length in H; discriminate H.
Qed.
Lemma all_free w name s : (forall j, s (numbered w name j) = None) -> free_numbers w name s = 101%nat.
Proof.
  intros H. rewrite free_numbers_eq. transitivity (length (seq 0 101)); [|reflexivity]. f_equal. generalize (seq 0 101). induction l as [|j t IH]; [reflexivity|].
  cbn [filter]. unfold is_free at 1. rewrite H, IH. reflexivity.
Qed.
Lemma script_room sc stems : sc_work_dir sc = ["w"] -> NoDup stems -> (length (sc_setups sc) <= 101)%nat -> room sc stems script_fs.
Proof.
  intros Ew ND L stem Hs. rewrite Ew, all_free by (intros j; apply script_numbered). rewrite (NoDup_count_occ' string_dec) in ND. rewrite (ND stem Hs). lia.
Qed.
Lemma script_usable : usable ["w"] script_fs.
Proof. split; [reflexivity|left; reflexivity]. Qed.
Lemma script_observed f : In f script_inputs -> exists ob, observed [] script_fs f ob /\ fittable ob.
Proof.
  intros [<-|[<-|[<-|[]]]]; (eexists; split; [unfold observed; reflexivity|]); cbn;
    (split; [eexists; reflexivity|]; split; [eexists; reflexivity|]; split; [cbn; lia|];
     exists [[3]; [1]; [2]]; exists [[6]; [4]; [5]]; split; [reflexivity|]; split; [reflexivity|]; split; [cbn; lia|]; split; [cbn; lia|];
     intros [|[|[|i]]] Hi; cbn; split; try discriminate; lia).
Qed.
