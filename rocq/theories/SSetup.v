(** Specification of the telescopes the scripts are set up with. *)
From Coq Require Import Reals.
From Verif Require Import MAperture MTel MRad STel.
Open Scope R_scope.

(** A dish of 50 m radius at a Gregorian telescope (focal lengths 30 m and 387.39435 m)
    whose aperture is open exactly where [clear] holds. *)
Definition dish (t : telgeo) (clear : R -> R -> Prop) : Prop :=
  tel_pr t = 50 /\ (forall x y, block_dist t x y = 0 \/ block_dist t x y = 1) /\ (forall x y, block_dist t x y = 1 <-> clear x y) /\
  forall x y d, opd_func t x y d = opd_manual 30 (38739435 / 100000) x y d.

(** Open points of Effelsberg with legs inclined at [deg] degrees: outside the 3.25 m
    sub-reflector, the legs and their shades, whose corner lies on the rim and on the
    ray from (0, 1) at that inclination. *)
Definition shadowed (deg x y : R) : Prop := exists C D, 0 < C /\ D = 1 + C * tan (deg * PI / 180) /\ C ^ 2 + D ^ 2 = 50 ^ 2 /\
  annulus 50 (13 / 4) x y /\ ~ legs 1 (93 / 4) x y /\ ~ shades C D x y.
