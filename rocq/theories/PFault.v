(** Programs that report every failed system call. *)
From Coq Require Import String List FunctionalExtensionality.
From Verif Require Import PyBase Num MFs MFault PFs.
Import ListNotations.
Open Scope prog_scope.

(** After a failed call the program raises, or (os.makedirs) goes on as it does when
    the directory is there already. *)
Definition stops {A X} (o : op X) : (X -> prog A) -> Prop :=
  match o in op X return (X -> prog A) -> Prop with
  | Mkdir p => fun k => k (Err OSError) = Raise OSError \/
      exists g h, k (Err OSError) = Do (Isdir p) g /\ g false = Raise OSError /\ k (Err FileExistsError) = Do (Isdir p) h /\ h true = g true
  | OpenW p => fun k => k (Err OSError) = Raise OSError
  | Read p => fun k => k (Err OSError) = Raise OSError
  | _ => fun _ => True
  end.
Fixpoint tame {A} (p : prog A) : Prop :=
  match p with Do o k => stops o k /\ forall x, tame (k x) | _ => True end.

Lemma tame_bind {A B} (p : prog A) (f : A -> prog B) : tame p -> (forall a, tame (f a)) -> tame (bindP p f).
Proof.
  intros Hp Hf. induction p as [a|e|X o k IH]; cbn in *; auto. destruct Hp as [H1 H2]. split; [|auto].
  destruct o; cbn in *; auto.
  - destruct H1 as [-> |(g & h & -> & E1 & -> & E2)]; [left; reflexivity|right].
    exists (fun x => bindP (g x) f), (fun x => bindP (h x) f). cbn. rewrite E1, E2. repeat split.
  - rewrite H1. reflexivity.
  - rewrite H1. reflexivity.
Qed.
Lemma tame_catch {A} (p : prog A) h : tame p -> h OSError = Raise OSError -> (forall e, tame (h e)) -> tame (catchP p h).
Proof.
  intros Hp Ho Hf. induction p as [a|e|X o k IH]; cbn in *; auto. destruct Hp as [H1 H2]. split; [|auto].
  destruct o; cbn in *; auto.
  - destruct H1 as [-> |(g & h' & -> & E1 & -> & E2)]; [left; exact Ho|right].
    exists (fun x => catchP (g x) h), (fun x => catchP (h' x) h). cbn. rewrite E1, E2. repeat split. exact Ho.
  - rewrite H1. exact Ho.
  - rewrite H1. exact Ho.
Qed.
Lemma tame_lift {A} (r : res A) : tame (lift r).
Proof. destruct r; exact I. Qed.
Lemma tame_read p : tame (callE (Read p)).
Proof. split; [reflexivity|intros x; apply tame_lift]. Qed.
Lemma tame_exists p : tame (call (Exists p)).
Proof. split; [exact I|intros x; exact I]. Qed.
Lemma tame_isdir p : tame (call (Isdir p)).
Proof. split; [exact I|intros x; exact I]. Qed.
Lemma tame_write p d : tame (write_file p d).
Proof. unfold write_file. apply tame_bind; [split; [reflexivity|intros x; apply tame_lift]|]. intros _. split; [exact I|intros x; exact I]. Qed.
Lemma tame_makedirs_rev b r : tame (makedirs_rev b r).
Proof.
  induction r as [|c t IH]; [destruct b; exact I|]. cbn [makedirs_rev]. apply tame_bind; [apply tame_exists|]. intros e. apply tame_bind.
  - destruct e; [exact I|]. apply tame_catch; [exact IH|reflexivity|intros []; exact I].
  - intros _. cbn. split.
    + destruct b; [right|left; reflexivity]. exists (fun d : bool => if d then Ret tt else Raise OSError), (fun d : bool => if d then Ret tt else Raise FileExistsError).
      repeat split.
    + intros [u|e']; [exact I|]. destruct b; [|exact I]. cbn. split; [exact I|]. intros []; exact I.
Qed.
Lemma tame_makedirs p b : tame (makedirs p b).
Proof. apply tame_makedirs_rev. Qed.

Lemma steps_do {A X} m (o : op X) (k : X -> prog A) s : steps (S m) (Do o k) s = steps m (k (fst (exec o s))) (snd (exec o s)).
Proof. cbn. destruct (exec o s); reflexivity. Qed.
Lemma run_do {A X} (o : op X) (k : X -> prog A) s : run (Do o k) s = run (k (fst (exec o s))) (snd (exec o s)).
Proof. cbn. destruct (exec o s); reflexivity. Qed.

Definition cut {A} (p : prog A) (s : fs) (r : res A * fs) : Prop := r = run p s \/ exists m, r = (Err OSError, snd (steps m p s)).
Lemma cut_do {A X} (o : op X) (k : X -> prog A) s r : cut (k (fst (exec o s))) (snd (exec o s)) r -> cut (Do o k) s r.
Proof. intros [-> |[m ->]]; [left; symmetry; apply run_do|right; exists (S m); rewrite steps_do; reflexivity]. Qed.

Lemma run_cut {A} bad (p : prog A) : tame p -> forall i s, cut p s (run_bad false bad i p s).
Proof.
  intros Hp. induction p as [a|e|X o k IH]; intros i s; [left; reflexivity|left; reflexivity|].
  destruct Hp as [H1 H2].
  assert (N : cut (Do o k) s (let '(x, s') := exec o s in run_bad false bad (S i) (k x) s')).
  { apply cut_do. destruct (exec o s) as [x s']. apply IH, H2. }
  cbn [run_bad]. destruct (bad i); [|exact N].
  destruct o; cbn [refused]; cbn [stops] in H1.
  - exact N.
  - exact N.
  - destruct H1 as [E|(g & h & E & E1 & E' & E2)].
    + rewrite E. right. exists 0%nat. reflexivity.
    + rewrite E. cbn [run_bad refused].
      replace (if bad (S i) then None else None) with (@None (res bool)) by (destruct (bad (S i)); reflexivity).
      destruct (exec (Isdir p) s) as [d s'] eqn:Ed. cbn in Ed.
      destruct (s p) as [[|doc]|] eqn:Ep; injection Ed as <- <-.
      * (* it is a directory: as if the call had answered FileExistsError *)
        apply cut_do. cbn [exec]. rewrite Ep. cbn [fst snd].
        replace (run_bad false bad (S (S i)) (g true) s) with (run_bad false bad (S i) (k (Err FileExistsError)) s); [apply IH, H2|].
        rewrite E', <- E2. cbn [run_bad refused exec]. rewrite Ep. destruct (bad (S i)); reflexivity.
      * rewrite E1. right. exists 0%nat. reflexivity.
      * rewrite E1. right. exists 0%nat. reflexivity.
  - rewrite H1. right. exists 0%nat. reflexivity.
  - right. exists 0%nat. reflexivity.
  - rewrite H1. right. exists 0%nat. reflexivity.
Qed.

(** A program that ends without an exception has met no failure that changed anything. *)
Lemma run_ok {A} bad (p : prog A) i s a s' : tame p -> run_bad false bad i p s = (Ok a, s') -> run p s = (Ok a, s').
Proof. intros T H. destruct (run_cut bad p T i s) as [E|[m E]]; rewrite H in E; [symmetry; exact E|discriminate]. Qed.
