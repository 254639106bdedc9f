(** A real function on a box of any dimension that nowhere jumps down has a smallest value. *)
From Coq Require Import Reals List Lra Lia Classical.
Import ListNotations.
Open Scope R_scope.
Open Scope list_scope.

(** A property of sets of numbers that holds near every point of [l, h], for smaller sets and for unions, holds for [l, h]. *)
Lemma creep (Q : (R -> Prop) -> Prop) l h : l <= h ->
  (forall A B : R -> Prop, (forall x, A x -> B x) -> Q B -> Q A) -> (forall A B : R -> Prop, Q A -> Q B -> Q (fun x => A x \/ B x)) ->
  (forall x, l <= x <= h -> exists d, 0 < d /\ Q (fun y => l <= y <= h /\ Rabs (y - x) < d)) -> Q (fun y => l <= y <= h).
Proof.
  intros Hlh Mono Un Loc.
  set (E := fun s => l <= s <= h /\ Q (fun y => l <= y <= s)).
  assert (El : E l).
  { split; [lra|]. destruct (Loc l ltac:(lra)) as (d & Hd & H). refine (Mono _ _ _ H). intros y Hy. cbv beta in Hy |- *. split; [lra|]. replace (y - l) with 0 by lra. rewrite Rabs_R0. exact Hd. }
  destruct (completeness E) as (c & Ub & Least).
  { exists h. intros s [Hs _]. lra. }
  { exists l. exact El. }
  assert (Hc : l <= c <= h) by (split; [apply Ub; exact El|apply Least; intros s [Hs _]; lra]).
  destruct (Loc c Hc) as (d & Hd & Hq).
  assert (X : exists s, E s /\ c - d < s).
  { apply NNPP. intros N. assert (c <= c - d); [|lra]. apply Least. intros s Hs. destruct (Rle_lt_dec s (c - d)) as [L|L]; [exact L|]. exfalso. apply N. exists s. auto. }
  destruct X as (s & [Hs Qs] & Hsd). pose proof (Ub s (conj Hs Qs)) as Hsc.
  assert (E2 : E (Rmin h (c + d / 2))).
  { split; [split; [apply Rmin_glb; lra|apply Rmin_l]|]. refine (Mono _ _ _ (Un _ _ Qs Hq)). intros y Hy. cbv beta in Hy |- *. pose proof (Rmin_l h (c + d / 2)). pose proof (Rmin_r h (c + d / 2)). destruct (Rle_lt_dec y s) as [L|L]; [left; lra|right]. split; [lra|]. unfold Rabs. destruct (Rcase_abs _); lra. }
  pose proof (Ub _ E2) as U. assert (Rmin h (c + d / 2) = h) as Eh. { unfold Rmin in *. destruct (Rle_dec h (c + d / 2)); [reflexivity|lra]. }
  rewrite Eh in E2. exact (proj2 E2).
Qed.

Fixpoint inbox (lo hi x : list R) : Prop :=
  match lo, hi, x with
  | [], [], [] => True
  | l :: lo', h :: hi', t :: x' => l <= t <= h /\ inbox lo' hi' x'
  | _, _, _ => False
  end.
Definition close_to (d : R) (x y : list R) : Prop := Forall2 (fun s t => Rabs (t - s) < d) x y.

Lemma cover : forall (lo hi : list R) (Q : (list R -> Prop) -> Prop), Q (fun _ => False) ->
  (forall A B : list R -> Prop, (forall x, A x -> B x) -> Q B -> Q A) -> (forall A B : list R -> Prop, Q A -> Q B -> Q (fun x => A x \/ B x)) ->
  (forall x, inbox lo hi x -> exists d, 0 < d /\ Q (fun y => inbox lo hi y /\ close_to d x y)) -> Q (inbox lo hi).
Proof.
  induction lo as [|l lo IH]; intros hi Q Q0 Mono Un Loc.
  - destruct hi as [|h hi].
    + destruct (Loc [] I) as (d & Hd & H). refine (Mono _ _ _ H). intros y Hy. split; [exact Hy|]. destruct y; [constructor|destruct Hy].
    + apply (Mono _ _ (fun y (Hy : inbox [] (h :: hi) y) => Hy) Q0).
  - destruct hi as [|h hi]; [refine (Mono _ _ _ Q0); intros y Hy; exact Hy|].
    destruct (Rlt_le_dec h l) as [Hlh|Hlh].
    + refine (Mono _ _ _ Q0). intros y Hy. destruct y as [|t y]; cbn in Hy; [exact Hy|]. lra.
    + assert (Tube : forall t, l <= t <= h -> exists d, 0 < d /\ Q (fun y => match y with s :: ys => l <= s <= h /\ Rabs (s - t) < d /\ inbox lo hi ys | [] => False end)).
      { intros t Ht. apply (IH hi (fun A => exists d, 0 < d /\ Q (fun y => match y with s :: ys => l <= s <= h /\ Rabs (s - t) < d /\ A ys | [] => False end))).
        - exists 1. split; [lra|]. refine (Mono _ _ _ Q0). intros y Hy. destruct y as [|s ys]; [exact Hy|]. exact (proj2 (proj2 Hy)).
        - intros A B AB (d & Hd & H). exists d. split; [exact Hd|]. refine (Mono _ _ _ H). intros y Hy. destruct y as [|s ys]; [exact Hy|]. destruct Hy as (H1 & H2 & H3). auto.
        - intros A B (d & Hd & H) (d' & Hd' & H'). exists (Rmin d d'). split; [apply Rmin_pos; assumption|]. refine (Mono _ _ _ (Un _ _ H H')). intros y Hy.
          cbv beta in Hy |- *. destruct y as [|s ys]; [destruct Hy|]. destruct Hy as (H1 & H2 & H3). pose proof (Rmin_l d d'). pose proof (Rmin_r d d'). destruct H3 as [H3|H3]; [left|right]; repeat split; try tauto; lra.
        - intros x Hx. destruct (Loc (t :: x) (conj Ht Hx)) as (d & Hd & H). exists d. split; [exact Hd|]. exists d. split; [exact Hd|]. refine (Mono _ _ _ H). intros y Hy.
          destruct y as [|s ys]; [destruct Hy|]. destruct Hy as (H1 & H2 & H3 & H4). split; [split; assumption|]. constructor; [exact H2|exact H4]. }
      pose proof (creep (fun S => Q (fun y => match y with s :: ys => S s /\ inbox lo hi ys | [] => False end)) l h Hlh) as C. cbv beta in C.
      assert (Q (fun y => match y with s :: ys => (l <= s <= h) /\ inbox lo hi ys | [] => False end)) as H.
      { apply C.
        - intros A B AB H. refine (Mono _ _ _ H). intros y Hy. destruct y as [|s ys]; [exact Hy|]. destruct Hy. auto.
        - intros A B H H'. refine (Mono _ _ _ (Un _ _ H H')). intros y Hy. cbv beta in Hy |- *. destruct y as [|s ys]; [destruct Hy|]. tauto.
        - intros t Ht. destruct (Tube t Ht) as (d & Hd & H). exists d. split; [exact Hd|]. refine (Mono _ _ _ H). intros y Hy. destruct y as [|s ys]; [exact Hy|]. tauto. }
      refine (Mono _ _ _ H). intros y Hy. destruct y as [|s ys]; [destruct Hy|exact Hy].
Qed.

Lemma box_min lo hi (f : list R -> R) x0 : inbox lo hi x0 ->
  (forall x e, inbox lo hi x -> 0 < e -> exists d, 0 < d /\ forall y, inbox lo hi y -> close_to d x y -> f x - e <= f y) ->
  exists x, inbox lo hi x /\ forall y, inbox lo hi y -> f x <= f y.
Proof.
  intros Hx0 Lsc. apply NNPP. intros N.
  assert (W : forall x, inbox lo hi x -> exists y, inbox lo hi y /\ f y < f x).
  { intros x Hx. apply NNPP. intros M. apply N. exists x. split; [exact Hx|]. intros y Hy. destruct (Rle_lt_dec (f x) (f y)) as [L|L]; [exact L|]. exfalso. apply M. exists y. auto. }
  assert (G : exists y, inbox lo hi y /\ forall z, inbox lo hi z -> f y < f z).
  { apply (cover lo hi (fun A => exists y, inbox lo hi y /\ forall z, A z -> f y < f z)).
    - exists x0. split; [exact Hx0|]. intros z [].
    - intros A B AB (y & Hy & H). exists y. split; [exact Hy|]. intros z Hz. apply H. auto.
    - intros A B (y & Hy & H) (y' & Hy' & H'). destruct (Rle_lt_dec (f y) (f y')) as [L|L].
      + exists y. split; [exact Hy|]. intros z [Hz|Hz]; [apply H; exact Hz|]. specialize (H' z Hz). lra.
      + exists y'. split; [exact Hy'|]. intros z [Hz|Hz]; [specialize (H z Hz); lra|apply H'; exact Hz].
    - intros x Hx. destruct (W x Hx) as (y & Hy & L). destruct (Lsc x ((f x - f y) / 2) Hx ltac:(lra)) as (d & Hd & H). exists d. split; [exact Hd|]. exists y. split; [exact Hy|].
      intros z [Hz Hc]. specialize (H z Hz Hc). lra. }
  destruct G as (y & Hy & H). specialize (H y Hy). lra.
Qed.
