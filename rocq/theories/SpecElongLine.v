(** Load curves of cables that are straight between two strains. *)
From Coq Require Import ZArith Bool List Sorted Reals.
From Verif Require Import Num NumFacts ModelBase ModelElongation SpecElong.
Import ListNotations.
Open Scope R_scope.

(** Between [a] and [b] the load rises along a line. *)
Definition straight_between (m : ElongModel RNum) (a b : R) : Prop :=
  exists c k, 0 < k /\ forall e, a <= e <= b -> cable_load m e = Ok (c + k * e).

(** From [a] on it does. *)
Definition straight_from (m : ElongModel RNum) (a : R) : Prop :=
  exists c k, 0 < k /\ forall e, a <= e -> cable_load m e = Ok (c + k * e).

(** Two points next to each other in a list. *)
Definition adjacent {A : Type} (l : list A) (p q : A) : Prop := exists u v, l = u ++ p :: q :: v.

(** The loads of points do not fall. *)
Definition loads_rise (l : list (Point2d RNum)) : Prop := Sorted (fun p q : Point2d RNum => p2y p <= p2y q) l.

(** The load [y] is reached on such a line: between two points, or beyond the last. *)
Definition on_line (m : ElongModel RNum) (l : list (Point2d RNum)) (y : R) : Prop :=
  (loads_rise l /\ exists p q, adjacent l p q /\ p2y p < y < p2y q /\ straight_between m (p2x p) (p2x q)) \/
  (exists p u q, l = p :: u /\ last u p = q /\ p2y p < y /\ p2y q <= y /\ straight_from m (p2x q)).

(** A component with a state whose region points lie in this order. *)
Definition in_order (c : CompModel RNum) : Prop :=
  exists pu ps pe c' s, cm_PointsRegions c = Ok ([pu; ps; pe], c') /\ cm_state c = Some s /\ st_type s <> PTNull /\
    p2x pu <= p2x ps < p2x pe.
