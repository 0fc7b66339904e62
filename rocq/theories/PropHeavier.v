(** Properties of two catenaries of the same span and horizontal tension (catenary.cc). *)
From Coq Require Import ZArith List Reals Lra.
From Verif Require Import Num NumFacts ModelBase ModelCatenary SpecCatenary SpecScale3 ProofReal ProofSpan ProofHeavier ProofHeavierEnd.
Import ListNotations.
Open Scope R_scope.

(** C177: of two valid catenaries with the same spacing and horizontal tension, after any
    histories of calls, the one with [k] times the load is longer, has more sag, more
    maximum tension and more tension in the sum of its ends; length and sag grow no more
    than in the ratio of the catenary constants. *)
Theorem catenary_heavier : forall ks ks' (k : R),
  let c := c3_run (@Catenary3d_default RNum) ks in let c' := c3_run (@Catenary3d_default RNum) ks' in
  c3_Validate c = true -> c3_Validate c' = true -> c3_spacing c = c3_spacing c' ->
  c3_tension_horizontal c = c3_tension_horizontal c' -> multiple3 k (c3_weight c) (c3_weight c') -> 1 < k ->
  let h := c3_tension_horizontal c in let w := Vector3d_Magnitude (c3_weight c) in
  0 < c3_Length c' - c3_Length c <= h / w * (1 - / k) /\
  0 < c3_Sag c' - c3_Sag c <= 4 / 3 * (h / w) * (1 - / k) /\
  0 < c3_TensionMax c' - c3_TensionMax c /\
  0 < (c3_Tension c' (0 : R) + c3_Tension c' (1 : R)) - (c3_Tension c (0 : R) + c3_Tension c (1 : R)).
Proof. exact heavier. Qed.
Print Assumptions catenary_heavier.

(** A steep span with one and with two units of weight. *)
Example catenary_heavier_case :
  let c := c3_run (@Catenary3d_default RNum) (steep_calls 1) in let c' := c3_run (@Catenary3d_default RNum) (steep_calls 2) in
  c3_Validate c = true /\ c3_Validate c' = true /\ c3_spacing c = c3_spacing c' /\
  c3_tension_horizontal c = c3_tension_horizontal c' /\ multiple3 2 (c3_weight c) (c3_weight c').
Proof.
  intros c c'. split; [apply steep_valid; lra|]. split; [apply steep_valid; lra|].
  split; [reflexivity|]. split; [reflexivity|]. unfold multiple3. cbn. change (F RNum) with R. repeat split; lra.
Qed.

(** C178: it is not true that more load means more tension at every point: on a steep
    span, valid both times, twice the load takes over 40 off the tension at the lower end. *)
Theorem heavier_tension_everywhere_refuted : ~ (forall ks ks' (k p : R),
  let c := c3_run (@Catenary3d_default RNum) ks in let c' := c3_run (@Catenary3d_default RNum) ks' in
  c3_Validate c = true -> c3_Validate c' = true -> c3_spacing c = c3_spacing c' ->
  c3_tension_horizontal c = c3_tension_horizontal c' -> multiple3 k (c3_weight c) (c3_weight c') -> 1 < k ->
  0 <= p <= 1 -> c3_Tension c p <= c3_Tension c' p).
Proof.
  intros H. destruct heavier_end as (ks & ks' & V & V' & S & T & W & L).
  specialize (H ks ks' 2 0 V V' S T W ltac:(lra) ltac:(lra)). cbv zeta in *. change (F RNum) with R in *. lra.
Qed.
Print Assumptions heavier_tension_everywhere_refuted.
