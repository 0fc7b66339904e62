(** Catenaries in three dimensions of the same shape. *)
From Coq Require Import ZArith Reals.
From Verif Require Import Num ModelBase ModelCatenary SpecCatenary.
Open Scope R_scope.

(** [w] is [v] multiplied by [k]. *)
Definition multiple3 (k : R) (v w : Vector3d RNum) : Prop :=
  (v3x w : R) = k * v3x v /\ (v3y w : R) = k * v3y v /\ (v3z w : R) = k * v3z v.

(** [c'] is [c] with all distances multiplied by [l] and all forces by [m], with the
    load blown to the same side. *)
Record similar3 (l m : R) (c c' : Catenary3d RNum) : Prop := {
  sim3_direction : c3_direction c' = c3_direction c;
  sim3_spacing : multiple3 l (c3_spacing c) (c3_spacing c');
  sim3_tension : (c3_tension_horizontal c' : R) = m * c3_tension_horizontal c;
  sim3_weight : multiple3 (m / l) (c3_weight c) (c3_weight c')
}.

(** An answer multiplied by [k]. *)
Definition times3 (k : R) (x : @Answer RNum) : @Answer RNum :=
  match x with
  | ANum x => ANum (N := RNum) (k * x)
  | APoint3 p => APoint3 (mkPoint3d (N := RNum) (k * p3x p) (k * p3y p) (k * p3z p))
  | AVector3 v => AVector3 (mkVector3d (N := RNum) (k * v3x v) (k * v3y v) (k * v3z v))
  | x => x
  end.

(** The factor of the answer to each question: distances, forces, a force per
    distance, pure numbers and angles. *)
Definition factor3 (l m : R) (q : @C3Question RNum) : R :=
  match q with
  | Q3Constant | Q3Coordinate _ | Q3CoordinateChord _ | Q3Length | Q3LengthSlack
  | Q3Sag | Q3SagAt _ | Q3Spacing => l
  | Q3Tension _ | Q3TensionVector _ _ | Q3TensionAverage _ | Q3TensionMax | Q3TensionHorizontal => m
  | Q3Weight => m / l
  | Q3Origin | Q3SagPoint | Q3SwingAngle | Q3TangentAngleTransverse _ _ | Q3TangentAngleVertical _ _
  | Q3TangentVector _ _ | Q3Validate | Q3Direction => 1
  end.

(** Validation has fixed ranges, and a negative number of points is an error. *)
Definition asks_shape3 (q : @C3Question RNum) : Prop :=
  match q with Q3Validate => False | Q3TensionAverage n => (0 <= n)%Z | _ => True end.
