(** Catenaries of the same shape, and catenaries that are mirror images. *)
From Coq Require Import ZArith Reals.
From Verif Require Import Num ModelBase ModelCatenary SpecCatenary.
Open Scope R_scope.

(** [c'] is [c] with all distances multiplied by [l] and all forces by [m]. *)
Record similar (l m : R) (c c' : Catenary2d RNum) : Prop := {
  sim_x : (v2x (c2_spacing c') : R) = l * v2x (c2_spacing c);
  sim_y : (v2y (c2_spacing c') : R) = l * v2y (c2_spacing c);
  sim_h : (c2_tension c' : R) = m * c2_tension c;
  sim_w : (c2_weight c' : R) = m / l * c2_weight c
}.

(** An answer multiplied by [k]. *)
Definition times (k : R) (x : @Answer RNum) : @Answer RNum :=
  match x with
  | ANum x => ANum (N := RNum) (k * x)
  | APoint p => APoint (mkPoint2d (N := RNum) (k * p2x p) (k * p2y p))
  | AVector v => AVector (mkVector2d (N := RNum) (k * v2x v) (k * v2y v))
  | x => x
  end.

(** The factor of the answer to each question: distances, forces, a force per
    distance, pure numbers and angles. *)
Definition factor (l m : R) (q : @C2Question RNum) : R :=
  match q with
  | Q2Constant | Q2Coordinate _ _ | Q2CoordinateChord _ _ | Q2Length | Q2LengthSlack
  | Q2Sag | Q2SagAt _ | Q2Spacing => l
  | Q2Tension _ | Q2TensionVector _ _ | Q2TensionAverage _ | Q2TensionMax | Q2TensionHorizontal => m
  | Q2Weight => m / l
  | Q2PositionFraction _ | Q2Origin | Q2SagPoint | Q2TangentAngle _ _ | Q2TangentVector _ _ | Q2Validate => 1
  end.

(** Validation has fixed ranges, and a negative number of points is an error. *)
Definition asks_shape (q : @C2Question RNum) : Prop :=
  match q with Q2Validate => False | Q2TensionAverage n => (0 <= n)%Z | _ => True end.

(** [c'] is [c] seen from the other side. *)
Record mirrored (c c' : Catenary2d RNum) : Prop := {
  mir_x : (v2x (c2_spacing c') : R) = v2x (c2_spacing c);
  mir_y : (v2y (c2_spacing c') : R) = - v2y (c2_spacing c);
  mir_h : (c2_tension c' : R) = c2_tension c;
  mir_w : (c2_weight c' : R) = c2_weight c
}.
