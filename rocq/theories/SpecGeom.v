(** Directions along an alignment with coordinates, independent of the queries of
    transmission_line.cc. *)
From Coq Require Import List Reals.
From Verif Require Import Num ModelBase ModelAlignment.
Import ListNotations.
Open Scope R_scope.

(** (ux, uy) is the horizontal vector of segment [k] divided by its length along
    the stations. *)
Definition segment_direction (al : list (AlignmentPoint RNum)) (pts : list (Point3d RNum)) (k : nat)
    (ux uy : R) : Prop :=
  exists a b pa pb, nth_error al k = Some a /\ nth_error al (S k) = Some b /\
    nth_error pts k = Some pa /\ nth_error pts (S k) = Some pb /\
    ux * (ap_station b - ap_station a) = p3x pb - p3x pa /\
    uy * (ap_station b - ap_station a) = p3y pb - p3y pa.

(** The direction of the alignment at a station: that of its segment, and at an
    interior alignment point the sum of both neighbouring directions (the
    bisector). *)
Inductive direction_at (al : list (AlignmentPoint RNum)) (pts : list (Point3d RNum)) (st : R)
    : R -> R -> Prop :=
| direction_segment : forall k a b ux uy,
    nth_error al k = Some a -> nth_error al (S k) = Some b ->
    (ap_station a < st < ap_station b \/ (k = 0%nat /\ st = ap_station a) \/
     (length al = S (S k) /\ st = ap_station b)) ->
    segment_direction al pts k ux uy -> direction_at al pts st ux uy
| direction_bisector : forall k b ux uy wx wy,
    nth_error al (S k) = Some b -> (S (S k) < length al)%nat -> st = ap_station b ->
    segment_direction al pts k ux uy -> segment_direction al pts (S k) wx wy ->
    direction_at al pts st (ux + wx) (uy + wy).
