(** Curves that rise and bend in one direction, and straight curves. *)
From Coq Require Import List Reals.
From Verif Require Import SpecPolynomial.
Open Scope R_scope.

(** Between [lo] and [hi] the slope is positive and falls. *)
Definition rises_concave (slope : R -> R) (lo hi : R) : Prop :=
  forall x z, lo <= x -> x <= z -> z <= hi -> 0 < slope z <= slope x.

(** Between [lo] and [hi] the slope is positive and grows. *)
Definition rises_convex (slope : R -> R) (lo hi : R) : Prop :=
  forall x z, lo <= x -> x <= z -> z <= hi -> 0 < slope x <= slope z.

(** The coefficients of a straight line. *)
Definition straight (l : list R) (c0 c1 : R) : Prop := forall x, peval l x = c0 + c1 * x.
