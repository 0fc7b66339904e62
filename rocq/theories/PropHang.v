(** C187: the direction in which the 3D curve hangs from its chord (catenary.cc). *)
From Coq Require Import ZArith List Reals Lra.
From Verif Require Import Num NumFacts ModelBase ModelCatenary SpecCatenary3 ProofReal ProofCatenary3 ProofTangent3 ProofHang.
Import ListNotations.
Open Scope R_scope.

(** The curve is away from its chord in the direction of the unit load, which blows to the
    side of the direction, up to a relative 1e-5. *)
Definition hangs_along_load (c : Catenary3d RNum) : Prop := forall p : R,
  let q := c3_Coordinate c p in let r := c3_CoordinateChord c p in let s : R := c3_SagAt c p in
  let wy : R := v3y (c3_weight c) in let wz : R := v3z (c3_weight c) in let w := length3 0 wy wz in
  p3x q = p3x r :> R /\
  Rabs (w * (p3y q - p3y r) - side (c3_direction c) * (s * wy)) <= w * Rabs s / 100000 /\
  Rabs (w * (p3z q - p3z r) + s * wz) <= w * Rabs s / 100000.

(** C187 for level spans and for spans without transverse load.  Missing: inclined spans
    with transverse load, for which it is false, see below. *)
Theorem sag_along_load_partial : forall ks, let c := c3_run (@Catenary3d_default RNum) ks in
  usable3 c -> (v3z (c3_spacing c) : R) = 0 \/ (v3y (c3_weight c) : R) = 0 -> hangs_along_load c.
Proof. intros ks c U. exact (hang_load c (run3_usable ks) U). Qed.
Print Assumptions sag_along_load_partial.

(** A level span with load to the negative side. *)
Example sag_along_load_case : let c := c3_run (@Catenary3d_default RNum) (low_calls ++ [C3SetDirection ADNegative]) in
  hangs_along_load c /\ c3_direction c = ADNegative.
Proof.
  intros c. split; [|reflexivity]. apply sag_along_load_partial; [unfold usable3; cbn; repeat split; lra|left; reflexivity].
Qed.

(** C187 is false for inclined spans with transverse load: in a valid span every point
    between the ends is away from the chord along the line by more than a fifth of the sag. *)
Theorem sag_along_load_refuted : exists ks, let c := c3_run (@Catenary3d_default RNum) ks in
  usable3 c /\ c3_Validate c = true /\
  forall p : R, 0 < p < 1 -> 0 < c3_SagAt c p /\ c3_SagAt c p / 5 < p3x (c3_Coordinate c p) - p3x (c3_CoordinateChord c p).
Proof. exact (ex_intro _ w65_calls w65_hangs). Qed.
Print Assumptions sag_along_load_refuted.
