(** C190: the two sides to which the transverse load blows (catenary.cc). *)
From Coq Require Import ZArith List Reals Lra.
From Verif Require Import Num NumFacts ModelBase ModelCatenary SpecCatenary3 SpecWindSide ProofReal ProofCatenary3 ProofWindSide.
Import ListNotations.
Open Scope R_scope.

(** C190: after any history the curve, the tangents and the tensions of the two directions
    are mirror images in the vertical plane of the chord; the answers without a side do not
    depend on the direction. *)
Theorem wind_side_mirror : forall ks, let c := c3_run (@Catenary3d_default RNum) ks in
  let pos := c3_set_direction c ADPositive in let neg := c3_set_direction c ADNegative in
  (forall p : R, c3_CoordinateChord pos p = c3_CoordinateChord neg p /\
    mirror_image (vector_between (c3_CoordinateChord pos p) (c3_Coordinate pos p)) (vector_between (c3_CoordinateChord neg p) (c3_Coordinate neg p))) /\
  (forall (p : R) d, mirror_image (c3_TangentVector pos p d) (c3_TangentVector neg p d) /\
    mirror_image (c3_TensionVector pos p d) (c3_TensionVector neg p d)) /\
  c3_Constant pos = c3_Constant neg /\ c3_Length pos = c3_Length neg /\ c3_LengthSlack pos = c3_LengthSlack neg /\
  c3_PositionFractionOrigin pos = c3_PositionFractionOrigin neg /\
  c3_PositionFractionSagPoint pos = c3_PositionFractionSagPoint neg /\ c3_Sag pos = c3_Sag neg /\
  (forall p : R, c3_SagAt pos p = c3_SagAt neg p /\ c3_Tension pos p = c3_Tension neg p) /\
  c3_SwingAngle pos = c3_SwingAngle neg /\ (forall n, c3_TensionAverage pos n = c3_TensionAverage neg n) /\
  c3_TensionMax pos = c3_TensionMax neg /\ c3_Validate pos = c3_Validate neg.
Proof. exact (fun ks => side_answers (c3_run Catenary3d_default ks)). Qed.
Print Assumptions wind_side_mirror.

(** An inclined span with transverse load, blown to the negative side after a query. *)
Example wind_side_case : let c := c3_run (@Catenary3d_default RNum) (w65_calls ++ [C3SetDirection ADNegative; C3Query true]) in
  usable3 c /\ c3_set_direction c ADPositive <> c3_set_direction c ADNegative.
Proof. intros c. split; [unfold usable3; cbn; repeat split; lra|]. intros E. apply (f_equal (@c3_direction RNum)) in E. discriminate E. Qed.
