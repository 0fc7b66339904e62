(** Specification of directions by angles, independent of catenary.cc. *)
From Coq Require Import Reals.
Open Scope R_scope.

(** The vector (x, y) points into the direction of [a] degrees, counted from the first
    axis to the second, up to a relative 1e-5. *)
Definition points_at (a x y : R) : Prop :=
  let r := sqrt (x * x + y * y) in
  -180 <= a <= 180 /\
  Rabs (r * cos (a * PI / 180) - x) <= r / 100000 /\
  Rabs (r * sin (a * PI / 180) - y) <= r / 100000.
