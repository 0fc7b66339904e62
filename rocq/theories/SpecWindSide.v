(** Mirror images in the vertical plane along the line. *)
From Coq Require Import Reals.
From Verif Require Import Num ModelBase.
Open Scope R_scope.

(** Equal along the line, opposite across it and equal up, up to a relative 1e-12. *)
Definition mirror_image (v w : Vector3d RNum) : Prop :=
  let e := (Rabs (v3y v) + Rabs (v3z v)) / 1000000000000 in
  v3x v = v3x w /\ Rabs (v3y v + v3y w) <= e /\ Rabs (v3z v - v3z w) <= e.

(** The vector from a point to another. *)
Definition vector_between (a b : Point3d RNum) : Vector3d RNum :=
  mkVector3d (N := RNum) (p3x b - p3x a) (p3y b - p3y a) (p3z b - p3z a).
