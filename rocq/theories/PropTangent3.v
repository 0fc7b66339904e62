(** C184, C185: the swing angle and the tangent angles of the 3D catenary. *)
From Coq Require Import ZArith Bool List Reals Lra.
From Verif Require Import Num ModelBase ModelCatenary SpecCatenary3 SpecTangent ProofCatenary3 ProofTangent3 PropCatenary3.
Import ListNotations.
Open Scope R_scope.

(** C184: the load points down at the swing angle; a level span, and a span without
    transverse load, hangs in the plane of the load, so the tangent seen along the line
    has the same angle, except at the low point; the vertical angle is the one of the
    tangent seen from the side. *)
Theorem tangent_angles3 : forall ks, let c := c3_run (@Catenary3d_default RNum) ks in usable3 c ->
  let wy : R := v3y (c3_weight c) in let wz : R := v3z (c3_weight c) in
  points_at (c3_SwingAngle c) wz wy /\
  ((v3z (c3_spacing c) : R) = 0 \/ wy = 0 -> forall (p : R) dir, dir <> ADNull -> p <> c3_PositionFractionOrigin c ->
    points_at (c3_TangentAngleTransverse c p dir) wz wy) /\
  (forall (p : R) dir, let t := c3_TangentVector c p dir in (v3x t : R) <> 0 \/ (v3z t : R) <> 0 ->
    points_at (c3_TangentAngleVertical c p dir) (Rabs (v3x t)) (v3z t)).
Proof.
  intros ks c U. exact (conj (swing_points c (run3_usable ks) U)
    (conj (transverse_points c (run3_usable ks) U) (vertical_points c))).
Qed.
Print Assumptions tangent_angles3.

Example tangent_angles3_case : points_at (c3_SwingAngle low) 4 3 /\
  forall p : R, p <> c3_PositionFractionOrigin low -> points_at (c3_TangentAngleTransverse low p ADNegative) 4 3.
Proof.
  destruct (tangent_angles3 low_calls low_usable) as (A & B & _). split; [exact A|].
  intros p H. exact (B (or_introl Logic.eq_refl) p ADNegative ltac:(discriminate) H).
Qed.

(** C185 is false: a valid span has a position where the transverse angle is -999999 for
    both directions, while it is the angle of the load at every other position. *)
Theorem transverse_angle_everywhere_refuted : exists ks (p : R), let c := c3_run (@Catenary3d_default RNum) ks in
  0 < p < 1 /\ usable3 c /\ c3_Validate c = true /\
  (forall dir, dir <> ADNull -> (c3_TangentAngleTransverse c p dir : R) = -999999) /\
  (forall (q : R) dir, dir <> ADNull -> q <> p -> points_at (c3_TangentAngleTransverse c q dir) 4 3).
Proof. exact (ex_intro _ low_calls low_facts). Qed.
Print Assumptions transverse_angle_everywhere_refuted.
