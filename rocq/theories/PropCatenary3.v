(** Properties of Catenary3d (catenary.cc 496-943) in exact real arithmetic, for all
    objects that a history of calls can produce with usable inputs. *)
From Coq Require Import ZArith Bool List Reals Lra.
From Verif Require Import Num NumFacts ModelBase ModelCatenary SpecVector SpecCatenary SpecCatenary3
  ProofReal ProofVector HypFacts ProofCatenary ProofCatenary3.
Import ListNotations.
Open Scope R_scope.

(** A falling span with transverse load to the negative side; inputs replaced and
    queried in between. *)
Definition sample3_calls : list (C3Call RNum) :=
  [ C3SetTension (N := RNum) (5000 : R); C3Query true;
    C3SetSpacing (mkVector3d (N := RNum) (300 : R) (0 : R) (-40 : R));
    C3SetWeight (mkVector3d (N := RNum) (0 : R) (1 : R) (2 : R)); C3Query true;
    C3SetDirection ADNegative; C3SetSpacing (mkVector3d (N := RNum) (400 : R) (0 : R) (-30 : R)) ].
Definition sample3 : Catenary3d RNum := c3_run Catenary3d_default sample3_calls.
Lemma sample3_inputs : c3_spacing sample3 = mkVector3d (N := RNum) (400 : R) (0 : R) (-30 : R) /\
  c3_weight sample3 = mkVector3d (N := RNum) (0 : R) (1 : R) (2 : R) /\
  c3_tension_horizontal sample3 = (5000 : R) /\ c3_direction sample3 = ADNegative.
Proof.
  destruct (inputs3 sample3_calls (@Catenary3d_default RNum)) as (A & B & C & D).
  unfold sample3. rewrite A, B, C, D. repeat split; reflexivity.
Qed.
Lemma sample3_usable : usable3 sample3.
Proof. unfold usable3. destruct sample3_inputs as (-> & -> & -> & _). cbn. lra. Qed.

(** C64 *)
Theorem catenary3_end_points : forall ks, let c := c3_run (@Catenary3d_default RNum) ks in
  usable3 c ->
  c3_Coordinate c (0 : R) = mkPoint3d (N := RNum) (0 : R) (0 : R) (0 : R) /\
  let e := c3_Coordinate c (1 : R) in
  let s := c3_spacing c in
  let tol := length3 (v3x s) (v3y s) (v3z s) / 1000000 in
  Rabs (p3x e - v3x s) <= tol /\ p3y e = v3y s /\ Rabs (p3z e - v3z s) <= tol.
Proof. intros ks c U. exact (curve3_ends c (run3_usable ks) U). Qed.
Print Assumptions catenary3_end_points.

Example catenary3_end_points_case :
  Rabs (p3z (c3_Coordinate sample3 (1 : R)) - -30) <= length3 400 0 (-30) / 1000000.
Proof.
  destruct (catenary3_end_points sample3_calls sample3_usable) as (_ & _ & _ & H). fold sample3 in H.
  destruct sample3_inputs as (E & _). rewrite E in H. exact H.
Qed.

(** C65 is false for inclined spans with transverse load: a valid catenary whose end
    forces leave more than a fifth of the load of the span along x. *)
Theorem catenary3_equilibrium_refuted : exists ks, let c := c3_run (@Catenary3d_default RNum) ks in
  usable3 c /\ c3_Validate c = true /\ ~ ends_carry_load c /\
  length3 0 (v3y (c3_weight c)) (v3z (c3_weight c)) * c3_Length c / 5 <=
    Rabs (v3x (c3_TensionVector c (1 : R) ADPositive) + v3x (c3_TensionVector c (0 : R) ADNegative)).
Proof. exact (ex_intro _ w65_calls w65_facts). Qed.
Print Assumptions catenary3_equilibrium_refuted.

(** C65 holds for level spans and for spans without transverse load.  Missing:
    nothing else holds, see the refutation. *)
Theorem catenary3_equilibrium_partial : forall ks, let c := c3_run (@Catenary3d_default RNum) ks in
  usable3 c -> ((v3z (c3_spacing c) : R) = 0 \/ (v3y (c3_weight c) : R) = 0) -> ends_carry_load c.
Proof. intros ks c U H. exact (ends_partial c (run3_usable ks) U H). Qed.
Print Assumptions catenary3_equilibrium_partial.

(** Both cases: a level span with load to the negative side, and an inclined span
    without transverse load. *)
Example catenary3_equilibrium_case :
  ends_carry_load (c3_run Catenary3d_default
    (sample3_calls ++ [C3SetSpacing (mkVector3d (N := RNum) (400 : R) (0 : R) (0 : R))])) /\
  ends_carry_load (c3_run Catenary3d_default
    (sample3_calls ++ [C3SetWeight (mkVector3d (N := RNum) (0 : R) (0 : R) (2 : R))])).
Proof.
  split; apply catenary3_equilibrium_partial; unfold usable3;
  match goal with |- context [c3_run Catenary3d_default ?ks] =>
    destruct (inputs3 ks (@Catenary3d_default RNum)) as (A & B & C & D); rewrite ?B, ?C, ?D; cbn; lra end.
Qed.

(** C67 *)
Theorem catenary3_tension_magnitude : forall ks, let c := c3_run (@Catenary3d_default RNum) ks in
  usable3 c -> forall (p : R) dir, dir <> ADNull ->
  Vector3d_Magnitude (c3_TangentVector c p dir) = 1 /\
  Vector3d_Magnitude (c3_TensionVector c p dir) = c3_Tension c p.
Proof. intros ks c U p dir H. exact (conj (tangent3_mag c (run3_usable ks) U p dir H) (tension3_mag c (run3_usable ks) U p dir H)). Qed.
Print Assumptions catenary3_tension_magnitude.

Example catenary3_tension_magnitude_case :
  Vector3d_Magnitude (c3_TensionVector sample3 (/ 3 : R) ADNegative) = c3_Tension sample3 (/ 3 : R).
Proof.
  exact (proj2 (catenary3_tension_magnitude sample3_calls sample3_usable (/ 3) ADNegative ltac:(discriminate))).
Qed.

(** C68 *)
Theorem catenary3_sag_from_chord : forall ks, let c := c3_run (@Catenary3d_default RNum) ks in
  usable3 c ->
  (forall p : R, 0 <= p <= 1 ->
    let q := c3_Coordinate c p in let r := c3_CoordinateChord c p in
    length3 (p3x q - p3x r) (p3y q - p3y r) (p3z q - p3z r) = c3_SagAt c p /\ 0 <= c3_SagAt c p) /\
  (exists f : R -> R, f 0 = 0 /\ f 1 = 1 /\ (forall p q, p < q -> f p < f q) /\
    let e := c3_Coordinate c (1 : R) in
    forall p : R, 0 <= p ->
      c3_CoordinateChord c p = mkPoint3d (N := RNum) (f p * p3x e) (f p * p3y e) (f p * p3z e)).
Proof. intros ks c U. exact (sag3_facts c (run3_usable ks) U). Qed.
Print Assumptions catenary3_sag_from_chord.

Example catenary3_sag_from_chord_case :
  let q := c3_Coordinate sample3 (/ 2 : R) in let r := c3_CoordinateChord sample3 (/ 2 : R) in
  length3 (p3x q - p3x r) (p3y q - p3y r) (p3z q - p3z r) = c3_SagAt sample3 (/ 2 : R).
Proof.
  destruct (catenary3_sag_from_chord sample3_calls sample3_usable) as (H & _). apply (H (/ 2)). lra.
Qed.
