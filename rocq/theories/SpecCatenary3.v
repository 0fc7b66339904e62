(** Specification of the 3D catenary, independent of catenary.cc. *)
From Coq Require Import ZArith Bool List Reals.
From Verif Require Import Num ModelBase ModelCatenary.
Open Scope R_scope.

(** The inputs that Catenary3d::Validate asks for: the spacing in the x-z plane,
    going forward, and the load transverse and downwards. *)
Definition usable3 (c : Catenary3d RNum) : Prop :=
  0 < v3x (c3_spacing c) /\ (v3y (c3_spacing c) : R) = 0 /\
  (v3x (c3_weight c) : R) = 0 /\ 0 <= v3y (c3_weight c) /\ 0 < v3z (c3_weight c) /\
  0 < c3_tension_horizontal c.

Definition length3 (x y z : R) : R := sqrt (x * x + y * y + z * z).

(** Sign of the transverse load for the side of the line it blows to. *)
Definition side (d : AxisDirectionType) : R := match d with ADNegative => -1 | _ => 1 end.

(** The forces of both ends carry the load of the span, up to a relative 1e-6. *)
Definition ends_carry_load (c : Catenary3d RNum) : Prop :=
  let r := c3_TensionVector c (1 : R) ADPositive in
  let l := c3_TensionVector c (0 : R) ADNegative in
  let len := c3_Length c in
  let wy := v3y (c3_weight c) in
  let wz := v3z (c3_weight c) in
  let tol := length3 0 wy wz * len / 1000000 in
  Rabs (v3x r + v3x l) <= tol /\
  Rabs (v3y r + v3y l + side (c3_direction c) * (wy * len)) <= tol /\
  Rabs (v3z r + v3z l - wz * len) <= tol.
