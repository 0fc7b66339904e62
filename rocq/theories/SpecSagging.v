(** Specification of the saggers and of the sag position corrector, independent of their
    code: new objects with the last arguments, and sums of lengths. *)
From Coq Require Import ZArith Bool List Reals.
From Verif Require Import Num ModelBase ModelLine ModelCatenary SpecCatenary SpecSolver ModelSagtension ModelSagging.
Import ListNotations.
Open Scope num_scope.

Section Spec.
Context {N : Num}.

(** The arguments of the last setters of a stopwatch sagger. *)
Definition pickSw_catenary (k : SwCall N) : option (Catenary3d N) := match k with SwSetCatenary c => Some c | _ => None end.
Definition pickSw_units (k : SwCall N) : option UnitSystem := match k with SwSetUnits u => Some u | _ => None end.

(** A new stopwatch sagger with both setters called. *)
Definition sw_fresh (c : Catenary3d N) (u : UnitSystem) : Stopwatch N := sw_set_units (sw_set_catenary Stopwatch_new c) u.

(** Two stopwatch saggers answer alike. *)
Definition sw_alike (s t : Stopwatch N) : Prop :=
  (forall wave, omap fst (TimeReturn s wave) = omap fst (TimeReturn t wave)) /\
  fst (VelocityWave s) = fst (VelocityWave t) /\ sw_Validate s = sw_Validate t.

(** The same for transit saggers. *)
Definition pickTs_catenary (k : TsCall N) : option (Catenary3d N) := match k with TsSetCatenary c => Some c | _ => None end.
Definition pickTs_transit (k : TsCall N) : option (Point3d N) := match k with TsSetTransit p => Some p | _ => None end.
Definition ts_fresh (c : Catenary3d N) (p : Point3d N) : Transit N := ts_set_transit (ts_set_catenary Transit_new c) p.
Definition ts_alike (s t : Transit N) : Prop :=
  omap fst (AngleLow s) = omap fst (AngleLow t) /\ omap fst (FactorControl s) = omap fst (FactorControl t) /\
  omap fst (PointCatenaryLow s) = omap fst (PointCatenaryLow t) /\ omap fst (PointTarget s) = omap fst (PointTarget t) /\
  omap fst (ts_Validate s) = omap fst (ts_Validate t).

(** The same for correctors. *)
Definition pickPc_linecable (k : PcCall N) : option (option (Strung N)) := match k with PcSetLinecable l => Some l | _ => None end.
Definition pickPc_points (k : PcCall N) : option (option (list (Point3d N))) := match k with PcSetPoints ps => Some ps | _ => None end.
Definition pc_fresh (l : option (Strung N)) (ps : option (list (Point3d N))) : Corrector N :=
  pc_set_points (pc_set_linecable Corrector_new l) ps.
Definition pc_alike (s t : Corrector N) : Prop :=
  omap fst (CatenariesClipped s) = omap fst (CatenariesClipped t) /\
  omap fst (CatenariesPulleyed s) = omap fst (CatenariesPulleyed t) /\
  omap fst (ClippingOffsets s) = omap fst (ClippingOffsets t) /\
  omap fst (SagCorrections s) = omap fst (SagCorrections t) /\
  (forall env, omap fst (pc_Validate env s) = omap fst (pc_Validate env t)).

(** The length of the first [i] catenaries, added from the first on. *)
Fixpoint length_to (cs : list (Catenary3d N)) (i : nat) : N :=
  match i with
  | O => #0
  | S i => match nth_error cs i with Some c => length_to cs i + c3_Length c | None => length_to cs i end
  end.

(** What a corrector answers before its next setter. *)
Record corrected (s : Corrector N) (clipped pulleyed : list (Catenary3d N)) : Prop := mkCorrected {
  cd_clipped : omap fst (CatenariesClipped s) = Ok (Some clipped);
  cd_pulleyed : omap fst (CatenariesPulleyed s) = Ok (Some pulleyed)
}.

End Spec.

(** A pulley between two spans: the tension at the back end of the span [b] is the tension at
    the ahead end of the span [a], within 1/100 times the length of the spacing over its x. *)
Definition pulley_pair (a b : Catenary3d RNum) : Prop :=
  Rabs (c3_Tension (N := RNum) (c3_fresh ADPositive (c3_spacing b) (c3_tension_horizontal b) (c3_weight b)) 0 - c3_Tension (N := RNum) a 1) <=
  Vector3d_Magnitude (c3_spacing b) / v3x (c3_spacing b) / 100.

(** A cable on pulleys over the spans of [clipped] with the horizontal tension [h] in the first one. *)
Record pulley_line (clipped : list (Catenary3d RNum)) (h : R) (cs : list (Catenary3d RNum)) : Prop := mkPulleyLine {
  pl_spacing : map c3_spacing cs = map c3_spacing clipped;
  pl_weight : map c3_weight cs = map c3_weight clipped;
  pl_first : exists c, nth_error cs 0 = Some c /\ c3_tension_horizontal c = h;
  pl_pairs : forall i a b, nth_error cs i = Some a -> nth_error cs (S i) = Some b -> pulley_pair a b /\ v3y (c3_spacing b) = 0%R
}.

(** The length of a cable. *)
Definition total_length (cs : list (Catenary3d RNum)) : R := length_to cs (length cs).

(** The horizontal distance from [q] to [p], and the slope of the sight from [q] to [p]. *)
Definition away (q p : Point3d RNum) : R :=
  (sqrt ((p3x p - p3x q) * (p3x p - p3x q) + (p3y p - p3y q) * (p3y p - p3y q)))%R.
Definition rise (q p : Point3d RNum) : R := ((p3z p - p3z q) / away q p)%R.
