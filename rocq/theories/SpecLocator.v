(** Specification of the cable position locator and of its equilibrium solver, independent of
    their code: new objects with the last arguments, and positions of the attachments. *)
From Coq Require Import ZArith Bool List Reals.
From Verif Require Import Num ModelBase ModelAlignment ModelLine ModelCatenary SpecCatenary ModelThermal ModelLocator.
Import ListNotations.
Open Scope num_scope.

Section Spec.
Context {N : Num} {P : Type}.

(** The arguments of the last setters of an equilibrium solver. *)
Definition pickAe_catenaries (k : AeCall N) : option N := match k with AeSetAngleCatenaries a => Some a | _ => None end.
Definition pickAe_hardware (k : AeCall N) : option N := match k with AeSetAngleHardware a => Some a | _ => None end.
Definition pickAe_ahead (k : AeCall N) : option (option (Catenary3d N)) := match k with AeSetAhead c => Some c | _ => None end.
Definition pickAe_back (k : AeCall N) : option (option (Catenary3d N)) := match k with AeSetBack c => Some c | _ => None end.
Definition pickAe_direction (k : AeCall N) : option AxisDirectionType := match k with AeSetDirection d => Some d | _ => None end.

(** A new equilibrium solver with the five setters called. *)
Definition ae_fresh (catenaries hardware : N) (back ahead : option (Catenary3d N)) (d : AxisDirectionType) : Equilibrium N :=
  ae_set_direction (ae_set_ahead (ae_set_back (ae_set_angle_hardware (ae_set_angle_catenaries Equilibrium_new catenaries) hardware)
    back) ahead) d.

(** Two equilibrium solvers answer alike. *)
Definition ae_alike (s t : Equilibrium N) : Prop :=
  omap fst (ae_AngleEquilibrium s) = omap fst (ae_AngleEquilibrium t) /\
  omap fst (ae_TensionImbalance s) = omap fst (ae_TensionImbalance t) /\
  omap fst (ae_Validate s) = omap fst (ae_Validate t).

(** The same for locators. *)
Definition pickPl_direction (k : PlCall N P) : option AxisDirectionType := match k with PlSetDirection d => Some d | _ => None end.
Definition pickPl_index (k : PlCall N P) : option Z := match k with PlSetIndex i => Some i | _ => None end.
Definition pickPl_tension (k : PlCall N P) : option N := match k with PlSetTension h => Some h | _ => None end.
Definition pickPl_line (k : PlCall N P) : option (option (Line N P)) := match k with PlSetLine l => Some l | _ => None end.
Definition pickPl_weight (k : PlCall N P) : option (option (Vector3d N)) := match k with PlSetWeight w => Some w | _ => None end.
Definition pl_fresh (d : AxisDirectionType) (i : Z) (l : option (Line N P)) (h : N) (w : option (Vector3d N)) : Locator N P :=
  pl_set_weight (pl_set_tension (pl_set_line (pl_set_index (pl_set_direction Locator_new d) i) l) h) w.
Definition pl_alike (s t : Locator N P) : Prop :=
  omap fst (PointsCableAttachment s) = omap fst (PointsCableAttachment t) /\
  (forall index num, omap fst (PointsCable s index num) = omap fst (PointsCable t index num)) /\
  (forall parts, omap fst (pl_Validate parts s) = omap fst (pl_Validate parts t)).

(** The same line but for its caches. *)
Definition same_line (l l' : option (Line N P)) : Prop :=
  match l, l' with
  | None, None => True
  | Some l, Some l' =>
      tl_alignment l' = tl_alignment l /\ tl_line_cables l' = tl_line_cables l /\
      tl_line_structures l' = tl_line_structures l /\ tl_origin l' = tl_origin l
  | _, _ => False
  end.

(** The line answers [p] for the point where the hardware of a connection is attached to the
    structure. *)
Definition attached (l : Line N P) (c : Connection N) (p : Point3d N) : Prop :=
  snd (PointXyzLineStructureAttachment l (IndexLineStructure l (cn_line_structure c)) (cn_index_attachment c)) = Ok p.

(** The hardware of a connection. *)
Definition hangs_on (l : Line N P) (c : Connection N) (h : Hardware N) : Prop :=
  exists s, ModelLine.deref (tl_line_structures l) (cn_line_structure c) = Ok s /\
    vec_at (ls_hardwares s) (cn_index_attachment c) = Ok (Some h).

(** The connections of the cable of a locator. *)
Definition cable_connections (s : Locator N P) (l : Line N P) (cs : list (Connection N)) : Prop :=
  pl_line s = Some l /\ exists c, next_deref (tl_line_cables l) (pl_index s) = Ok c /\ cs = lc_connections c.

End Spec.

(** The distance of two points. *)
Definition distance (p q : Point3d RNum) : R :=
  sqrt ((p3x q - p3x p) * (p3x q - p3x p) + (p3y q - p3y p) * (p3y q - p3y p) + (p3z q - p3z p) * (p3z q - p3z p))%R.
