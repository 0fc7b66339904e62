(** Specification of plane rotations and directions, independent of vector.cc. *)
From Coq Require Import Reals.
From Verif Require Import Num ModelBase.
Open Scope R_scope.

(** (x', y') is (x, y) turned by the angle phi (radians, from x towards y). *)
Definition turned (x y phi x' y' : R) : Prop :=
  x' = x * cos phi - y * sin phi /\ y' = x * sin phi + y * cos phi.

(** phi is the angle of [a] degrees up to the error that the 15 digits of pi used
    by the code allow for one conversion of [a] and of one direction. *)
Definition about_degrees (a phi : R) : Prop :=
  Rabs (phi - a * PI / 180) <= (2 + Rabs a / 180) * (4 / 1000000000000000).

(** The angle of a rotation by [a] degrees: angles below 0.00005 degrees are
    ignored. *)
Definition rotation_angle (a phi : R) : Prop :=
  (Rabs a < 5 / 100000 /\ phi = 0) \/ (5 / 100000 <= Rabs a /\ about_degrees a phi).

Inductive Axis : Type := AxX | AxY | AxZ.

Definition component (v : Vector3d RNum) (ax : Axis) : R :=
  match ax with AxX => v3x v | AxY => v3y v | AxZ => v3z v end.

(** First and second axis of a plane, and the axis outside of it. *)
Definition plane_axes (p : Plane2dType) : option (Axis * Axis * Axis) :=
  match p with
  | PlNull => None
  | PlXy => Some (AxX, AxY, AxZ)
  | PlXz => Some (AxX, AxZ, AxY)
  | PlYx => Some (AxY, AxX, AxZ)
  | PlYz => Some (AxY, AxZ, AxX)
  | PlZx => Some (AxZ, AxX, AxY)
  | PlZy => Some (AxZ, AxY, AxX)
  end.
