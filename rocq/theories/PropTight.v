(** Properties of two catenaries of the same span (catenary.cc). *)
From Coq Require Import ZArith List Reals.
From Verif Require Import Num NumFacts ModelBase ModelCatenary SpecCatenary ProofReal ProofSpan ProofTight.
Import ListNotations.
Open Scope R_scope.

(** C140: of two valid catenaries with the same spacing and weight, after any histories of
    calls, the one with more horizontal tension is shorter, has less sag and more tension at
    both ends; none of these changes faster than the given rates. *)
Theorem catenary_tightens : forall ks ks',
  let c := c3_run (@Catenary3d_default RNum) ks in let c' := c3_run (@Catenary3d_default RNum) ks' in
  c3_Validate c = true -> c3_Validate c' = true -> c3_spacing c = c3_spacing c' -> c3_weight c = c3_weight c' ->
  let s := Vector3d_Magnitude (c3_spacing c) in let w := Vector3d_Magnitude (c3_weight c) in
  let step := (c3_tension_horizontal c' - c3_tension_horizontal c)%num in
  0 < step ->
  0 < c3_Length c - c3_Length c' <= / w * step /\
  0 < c3_Sag c - c3_Sag c' <= 4 / 3 / w * step /\
  0 < c3_Tension c' (0 : R) - c3_Tension c (0 : R) <= s / v3x (c3_spacing c) * step /\
  0 < c3_Tension c' (1 : R) - c3_Tension c (1 : R) <= s / v3x (c3_spacing c) * step /\
  0 < c3_TensionMax c' - c3_TensionMax c <= s / v3x (c3_spacing c) * step.
Proof. exact tighter. Qed.
Print Assumptions catenary_tightens.

Example catenary_tightens_case :
  let ks := [C3SetSpacing (span 1000); C3SetWeight (hang 1); C3SetTension (500 : RNum); C3Query true] in
  let ks' := [C3SetTension (2000 : RNum); C3SetWeight (hang 1); C3SetDirection ADNegative; C3Query true; C3SetSpacing (span 1000)] in
  let c := c3_run (@Catenary3d_default RNum) ks in let c' := c3_run (@Catenary3d_default RNum) ks' in
  c3_Validate c = true /\ c3_Validate c' = true /\ c3_spacing c = c3_spacing c' /\ c3_weight c = c3_weight c' /\
  (c3_tension_horizontal c : R) = 500 /\ (c3_tension_horizontal c' : R) = 2000.
Proof. exact tighter_case. Qed.
