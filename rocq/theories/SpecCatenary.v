(** Specification of the catenary, independent of catenary.cc. *)
From Coq Require Import ZArith Bool List Reals.
From Verif Require Import Num ModelBase ModelCatenary.
Import ListNotations.
Open Scope R_scope.

(** The curve of a hanging cable with H / w = k, low point at the origin. *)
Definition catenary_curve (k x : R) : R := k * (cosh (x / k) - 1).

(** [s] is the arc length of the graph of [f] from x1 to x2, by the integral of
    sqrt (1 + f'^2); [F] is an antiderivative. *)
Definition arc_length (f : R -> R) (x1 x2 s : R) : Prop :=
  exists f' F : R -> R,
    (forall x, derivable_pt_lim f x (f' x)) /\
    (forall x, derivable_pt_lim F x (sqrt (1 + f' x * f' x))) /\
    s = F x2 - F x1.

(** [m] is the mean of [g] over the arc of [f] from x1 to x2. *)
Definition arc_mean (f g : R -> R) (x1 x2 m : R) : Prop :=
  exists (f' G : R -> R) (s : R),
    (forall x, derivable_pt_lim f x (f' x)) /\
    (forall x, derivable_pt_lim G x (g x * sqrt (1 + f' x * f' x))) /\
    arc_length f x1 x2 s /\ s <> 0 /\ m * s = G x2 - G x1.

(** The line from (x1, y1) to (x2, y2) at x. *)
Definition on_line (x1 y1 x2 y2 x y : R) : Prop := (y - y1) * (x2 - x1) = (x - x1) * (y2 - y1).

(** ** What a program can ask, and a new object with given inputs *)
Section Questions.
Context {N : Num}.

(** A new object whose three setters were called. *)
Definition c2_fresh (s : Vector2d N) (h w : N) : Catenary2d N :=
  c2_set_weight (c2_set_tension (c2_set_spacing Catenary2d_default s) h) w.

Definition is_setter2 (k : C2Call N) : bool :=
  match k with C2SetSpacing _ | C2SetTension _ | C2SetWeight _ => true | _ => false end.

(** Questions and their answers. *)
Inductive C2Question : Type :=
| Q2Constant | Q2Coordinate (p : N) (shifted : bool) | Q2CoordinateChord (p : N) (shifted : bool)
| Q2Length | Q2LengthSlack | Q2PositionFraction (angle : N) | Q2Origin | Q2SagPoint
| Q2Sag | Q2SagAt (p : N) | Q2TangentAngle (p : N) (d : AxisDirectionType)
| Q2TangentVector (p : N) (d : AxisDirectionType) | Q2Tension (p : N)
| Q2TensionVector (p : N) (d : AxisDirectionType) | Q2TensionAverage (n : Z) | Q2TensionMax
| Q2Validate | Q2Spacing | Q2TensionHorizontal | Q2Weight.

Inductive Answer : Type :=
| ANum (x : N) | APoint (p : Point2d N) | AVector (v : Vector2d N) | APoint3 (p : Point3d N)
| AVector3 (v : Vector3d N) | ABool (b : bool) | ADir (d : AxisDirectionType).

Definition c2_answer (c : Catenary2d N) (q : C2Question) : Answer :=
  match q with
  | Q2Constant => ANum (c2_Constant c)
  | Q2Coordinate p s => APoint (c2_Coordinate c p s)
  | Q2CoordinateChord p s => APoint (c2_CoordinateChord c p s)
  | Q2Length => ANum (c2_Length c)
  | Q2LengthSlack => ANum (c2_LengthSlack c)
  | Q2PositionFraction a => ANum (c2_PositionFraction c a)
  | Q2Origin => ANum (c2_PositionFractionOrigin c)
  | Q2SagPoint => ANum (c2_PositionFractionSagPoint c)
  | Q2Sag => ANum (c2_Sag c)
  | Q2SagAt p => ANum (c2_SagAt c p)
  | Q2TangentAngle p d => ANum (c2_TangentAngle c p d)
  | Q2TangentVector p d => AVector (c2_TangentVector c p d)
  | Q2Tension p => ANum (c2_Tension c p)
  | Q2TensionVector p d => AVector (c2_TensionVector c p d)
  | Q2TensionAverage n => ANum (c2_TensionAverage c n)
  | Q2TensionMax => ANum (c2_TensionMax c)
  | Q2Validate => ABool (c2_Validate c)
  | Q2Spacing => AVector (c2_spacing c)
  | Q2TensionHorizontal => ANum (c2_tension c)
  | Q2Weight => ANum (c2_weight c)
  end.

(** The last setter of each kind decides the inputs. *)
Fixpoint last_of {K A : Type} (pick : K -> option A) (ks : list K) (d : A) : A :=
  match ks with
  | [] => d
  | k :: ks => last_of pick ks (match pick k with Some x => x | None => d end)
  end.
Definition pick_spacing (k : C2Call N) := match k with C2SetSpacing s => Some s | _ => None end.
Definition pick_tension (k : C2Call N) := match k with C2SetTension h => Some h | _ => None end.
Definition pick_weight (k : C2Call N) := match k with C2SetWeight w => Some w | _ => None end.

Definition pick3_direction (k : C3Call N) := match k with C3SetDirection d => Some d | _ => None end.
Definition pick3_spacing (k : C3Call N) := match k with C3SetSpacing s => Some s | _ => None end.
Definition pick3_tension (k : C3Call N) := match k with C3SetTension h => Some h | _ => None end.
Definition pick3_weight (k : C3Call N) := match k with C3SetWeight w => Some w | _ => None end.

(** A new 3D object whose four setters were called. *)
Definition c3_fresh (d : AxisDirectionType) (s : Vector3d N) (h : N) (w : Vector3d N) : Catenary3d N :=
  c3_set_weight (c3_set_tension (c3_set_spacing (c3_set_direction Catenary3d_default d) s) h) w.

Inductive C3Question : Type :=
| Q3Constant | Q3Coordinate (p : N) | Q3CoordinateChord (p : N) | Q3Length | Q3LengthSlack
| Q3Origin | Q3SagPoint | Q3Sag | Q3SagAt (p : N) | Q3SwingAngle
| Q3TangentAngleTransverse (p : N) (d : AxisDirectionType)
| Q3TangentAngleVertical (p : N) (d : AxisDirectionType)
| Q3TangentVector (p : N) (d : AxisDirectionType)
| Q3Tension (p : N) | Q3TensionVector (p : N) (d : AxisDirectionType)
| Q3TensionAverage (n : Z) | Q3TensionMax | Q3Validate
| Q3Direction | Q3Spacing | Q3TensionHorizontal | Q3Weight.

Definition c3_answer (c : Catenary3d N) (q : C3Question) : Answer :=
  match q with
  | Q3Constant => ANum (c3_Constant c)
  | Q3Coordinate p => APoint3 (c3_Coordinate c p)
  | Q3CoordinateChord p => APoint3 (c3_CoordinateChord c p)
  | Q3Length => ANum (c3_Length c)
  | Q3LengthSlack => ANum (c3_LengthSlack c)
  | Q3Origin => ANum (c3_PositionFractionOrigin c)
  | Q3SagPoint => ANum (c3_PositionFractionSagPoint c)
  | Q3Sag => ANum (c3_Sag c)
  | Q3SagAt p => ANum (c3_SagAt c p)
  | Q3SwingAngle => ANum (c3_SwingAngle c)
  | Q3TangentAngleTransverse p d => ANum (c3_TangentAngleTransverse c p d)
  | Q3TangentAngleVertical p d => ANum (c3_TangentAngleVertical c p d)
  | Q3TangentVector p d => AVector3 (c3_TangentVector c p d)
  | Q3Tension p => ANum (c3_Tension c p)
  | Q3TensionVector p d => AVector3 (c3_TensionVector c p d)
  | Q3TensionAverage n => ANum (c3_TensionAverage c n)
  | Q3TensionMax => ANum (c3_TensionMax c)
  | Q3Validate => ABool (c3_Validate c)
  | Q3Direction => ADir (c3_direction c)
  | Q3Spacing => AVector3 (c3_spacing c)
  | Q3TensionHorizontal => ANum (c3_tension_horizontal c)
  | Q3Weight => AVector3 (c3_weight c)
  end.

End Questions.
