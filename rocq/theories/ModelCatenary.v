(** Model of /repo/src/transmissionline/catenary.cc (Catenary2d and Catenary3d).

    All methods are const but may refresh mutable members first.  A method [M] is
    modelled by a function for its result, which starts by the refresh of the
    code, and by the state after the call ([c2_ensure] or [c3_ensure]).  Calls of
    other methods inside refresh again, which changes nothing.  The lists of error
    messages are not modelled, only the result of Validate. *)
From Coq Require Import ZArith Bool List.
From Verif Require Import Num ModelBase.
Import ListNotations.
Open Scope num_scope.

Section Catenary.
Context {N : Num}.

(** catenary.h: the members of Catenary2d *)
Record Catenary2d : Type := mkCatenary2d {
  c2_is_updated : bool;
  c2_length : N;
  c2_length_left : N;
  c2_left : Point2d N;
  c2_right : Point2d N;
  c2_spacing : Vector2d N;
  c2_tension : N;
  c2_weight : N
}.

(** vector.cc 10-13: default constructor *)
Definition Vector2d_default : Vector2d N := mkVector2d ferr ferr.

(** catenary.cc 10-18 *)
Definition Catenary2d_default : Catenary2d :=
  mkCatenary2d true ferr ferr Point2d_default Point2d_default Vector2d_default ferr ferr.

(** catenary.cc 23-25 *)
Definition c2_Constant (c : Catenary2d) : N := c2_tension c / c2_weight c.

(** catenary.cc 27-29 *)
Definition c2_ConstantMinimum (spacing_endpoints : N) : N := spacing_endpoints / #2.

(** catenary.cc 409-414, for given inputs *)
Definition coordinate_y (h w x : N) : N := (h / w) * (fcosh (x / (h / w)) - #1).

(** catenary.cc 420-425, for given inputs *)
Definition length_from_origin (h w x : N) : N := (h / w) * fsinh (x / (h / w)).

(** catenary.cc 444-460 *)
Definition c2_UpdateEndPoints (c : Catenary2d) : Catenary2d :=
  let h := c2_tension c in
  let w := c2_weight c in
  let a := v2x (c2_spacing c) in
  let b := v2y (c2_spacing c) in
  let z := (a / #2) / (h / w) in
  let xl := (h / w) * (fasinh ((b * z) / (a * fsinh z)) - z) in
  let xr := (h / w) * (fasinh ((b * z) / (a * fsinh z)) + z) in
  mkCatenary2d (c2_is_updated c) (c2_length c) (c2_length_left c)
    (mkPoint2d xl (coordinate_y h w xl)) (mkPoint2d xr (coordinate_y h w xr))
    (c2_spacing c) h w.

(** catenary.cc 462-470 *)
Definition c2_UpdateLengths (c : Catenary2d) : Catenary2d :=
  let h := c2_tension c in
  let w := c2_weight c in
  let left := length_from_origin h w (p2x (c2_left c)) in
  mkCatenary2d (c2_is_updated c) (length_from_origin h w (p2x (c2_right c)) - left) left
    (c2_left c) (c2_right c) (c2_spacing c) h w.

(** catenary.cc 427-442: never fails *)
Definition c2_Update (c : Catenary2d) : Catenary2d :=
  let c := c2_UpdateLengths (c2_UpdateEndPoints c) in
  mkCatenary2d true (c2_length c) (c2_length_left c) (c2_left c) (c2_right c)
    (c2_spacing c) (c2_tension c) (c2_weight c).

(** The start of the queries, e.g. catenary.cc 35-37, with IsUpdated (416-418). *)
Definition c2_ensure (c : Catenary2d) : Catenary2d :=
  if c2_is_updated c then c else c2_Update c.

(** catenary.cc 381-390 (needs the refreshed members) *)
Definition c2_ConvertToPositionFraction (c : Catenary2d) (x : N) : N :=
  (length_from_origin (c2_tension c) (c2_weight c) x - c2_length_left c) / c2_length c.

(** catenary.cc 392-407 (needs the refreshed members) *)
Definition c2_CoordinateX (c : Catenary2d) (position_fraction : N) : N :=
  let length_left_to_position := position_fraction * c2_length c in
  let length_from_origin := length_left_to_position + c2_length_left c in
  let h := c2_tension c in
  let w := c2_weight c in
  (h / w) * fasinh (length_from_origin / (h / w)).

(** catenary.cc 409-414 *)
Definition c2_CoordinateY (c : Catenary2d) (x : N) : N :=
  coordinate_y (c2_tension c) (c2_weight c) x.

(** catenary.cc 31-50 *)
Definition c2_Coordinate (c : Catenary2d) (position_fraction : N) (is_shifted_origin : bool) : Point2d N :=
  let c := c2_ensure c in
  let x := c2_CoordinateX c position_fraction in
  let y := c2_CoordinateY c x in
  if is_shifted_origin then mkPoint2d (x - p2x (c2_left c)) (y - p2y (c2_left c))
  else mkPoint2d x y.

(** catenary.cc 52-77 *)
Definition c2_CoordinateChord (c : Catenary2d) (position_fraction : N) (is_shifted_origin : bool) : Point2d N :=
  let c := c2_ensure c in
  let coordinate_catenary := c2_Coordinate c position_fraction false in
  let x := p2x coordinate_catenary in
  let y := p2y (c2_left c)
           + ((p2x coordinate_catenary - p2x (c2_left c)) * (v2y (c2_spacing c) / v2x (c2_spacing c))) in
  if is_shifted_origin then mkPoint2d (x - p2x (c2_left c)) (y - p2y (c2_left c))
  else mkPoint2d x y.

(** catenary.cc 79-87 *)
Definition c2_Length (c : Catenary2d) : N := c2_length (c2_ensure c).

(** catenary.cc 89-95 *)
Definition c2_LengthSlack (c : Catenary2d) : N :=
  let c := c2_ensure c in
  c2_length c - Vector2d_Magnitude (c2_spacing c).

(** catenary.cc 97-115 *)
Definition c2_PositionFraction (c : Catenary2d) (tangent_angle : N) : N :=
  let c := c2_ensure c in
  let angle_radians := deg2rad tangent_angle in
  let slope := ftan angle_radians in
  let h := c2_tension c in
  let w := c2_weight c in
  let x := (h / w) * fasinh slope in
  c2_ConvertToPositionFraction c x.

(** catenary.cc 117-124 *)
Definition c2_PositionFractionOrigin (c : Catenary2d) : N :=
  c2_PositionFraction (c2_ensure c) #0.

(** catenary.cc 126-135 *)
Definition c2_PositionFractionSagPoint (c : Catenary2d) : N :=
  let c := c2_ensure c in
  c2_PositionFraction c (Vector2d_Angle (c2_spacing c) true).

(** catenary.cc 149-158 *)
Definition c2_SagAt (c : Catenary2d) (position_fraction : N) : N :=
  p2y (c2_CoordinateChord c position_fraction false) - p2y (c2_Coordinate c position_fraction false).

(** catenary.cc 137-147 *)
Definition c2_Sag (c : Catenary2d) : N :=
  let c := c2_ensure c in
  c2_SagAt c (c2_PositionFractionSagPoint c).

(** catenary.cc 160-183 *)
Definition c2_TangentAngle (c : Catenary2d) (position_fraction : N) (direction : AxisDirectionType) : N :=
  let c := c2_ensure c in
  let x := c2_CoordinateX c position_fraction in
  let slope := fsinh (x / (c2_tension c / c2_weight c)) in
  let tangent_angle := rad2deg (fatan slope) in
  match direction with
  | ADNegative => tangent_angle * #(-1)
  | _ => tangent_angle
  end.

(** catenary.cc 185-209 *)
Definition c2_TangentVector (c : Catenary2d) (position_fraction : N) (direction : AxisDirectionType) : Vector2d N :=
  let c := c2_ensure c in
  let angle_radians := deg2rad (c2_TangentAngle c position_fraction direction) in
  match direction with
  | ADNegative => mkVector2d (fopp (#1 * fcos angle_radians)) (fsin angle_radians)
  | ADPositive => mkVector2d (fcos angle_radians) (fsin angle_radians)
  | ADNull => Vector2d_default
  end.

(** catenary.cc 211-221 *)
Definition c2_Tension (c : Catenary2d) (position_fraction : N) : N :=
  let c := c2_ensure c in
  let x := c2_CoordinateX c position_fraction in
  c2_tension c * fcosh (x / (c2_tension c / c2_weight c)).

(** catenary.cc 223-237 *)
Definition c2_TensionVector (c : Catenary2d) (position_fraction : N) (direction : AxisDirectionType) : Vector2d N :=
  let c := c2_ensure c in
  Vector2d_Scale (c2_TangentVector c position_fraction direction) (c2_Tension c position_fraction).

(** catenary.cc 264-268: the sum over the points [iter], ..., [iter + k - 1] *)
Fixpoint tension_sum (c : Catenary2d) (num_points : Z) (iter : Z) (k : nat) (sum : N) : N :=
  match k with
  | O => sum
  | S k => tension_sum c num_points (iter + 1) k (sum + c2_Tension c (#iter / #num_points))
  end.

(** catenary.cc 239-276 *)
Definition c2_TensionAverage (c : Catenary2d) (num_points : Z) : N :=
  let c := c2_ensure c in
  if (num_points =? 0)%Z then
    let h := c2_tension c in
    let w := c2_weight c in
    let l := c2_length c in
    let k1 := fpow h #2 / (#2 * w * l) in
    let k2 := fsinh (p2x (c2_right c) / (h / w)) * fcosh (p2x (c2_right c) / (h / w)) in
    let k3 := fsinh (p2x (c2_left c) / (h / w)) * fcosh (p2x (c2_left c) / (h / w)) in
    let k4 := (p2x (c2_right c) - p2x (c2_left c)) / (h / w) in
    k1 * (k2 - k3 + k4)
  else if (0 <? num_points)%Z then
    tension_sum c num_points 0 (Z.to_nat (num_points + 1)) #0 / (#num_points + #1)
  else ferr.

(** catenary.cc 278-291 *)
Definition c2_TensionMax (c : Catenary2d) : N :=
  let c := c2_ensure c in
  if v2y (c2_spacing c) <=? #0 then c2_Tension c #0 else c2_Tension c #1.

(** catenary.cc 472-494 *)
Definition c2_ValidateCurveAndSpacing (c : Catenary2d) : bool :=
  negb (c2_Constant c <? c2_ConstantMinimum (Vector2d_Magnitude (c2_spacing c))).

(** catenary.cc 293-349 *)
Definition c2_Validate (c : Catenary2d) : bool :=
  if (c2_tension c <=? #0) || (c2_weight c <=? #0) || (v2x (c2_spacing c) <=? #0)
     || (#10000 <? fabs (v2y (c2_spacing c))) || (#2000 <=? fabs (v2y (c2_spacing c)))
  then false
  else c2_ValidateCurveAndSpacing c.

(** catenary.cc 351-367 *)
Definition c2_set_spacing (c : Catenary2d) (s : Vector2d N) : Catenary2d :=
  mkCatenary2d false (c2_length c) (c2_length_left c) (c2_left c) (c2_right c) s (c2_tension c) (c2_weight c).
Definition c2_set_tension (c : Catenary2d) (h : N) : Catenary2d :=
  mkCatenary2d false (c2_length c) (c2_length_left c) (c2_left c) (c2_right c) (c2_spacing c) h (c2_weight c).
Definition c2_set_weight (c : Catenary2d) (w : N) : Catenary2d :=
  mkCatenary2d false (c2_length c) (c2_length_left c) (c2_left c) (c2_right c) (c2_spacing c) (c2_tension c) w.

(** ** Catenary3d *)
Record Catenary3d : Type := mkCatenary3d {
  c3_catenary_2d : Catenary2d;
  c3_direction : AxisDirectionType;
  c3_is_updated : bool;
  c3_spacing : Vector3d N;
  c3_weight : Vector3d N
}.

(** catenary.cc 496-499 *)
Definition Catenary3d_default : Catenary3d :=
  mkCatenary3d Catenary2d_default ADPositive false Vector3d_default Vector3d_default.

(** catenary.cc 931-936: the spacing of the 2D catenary *)
Definition spacing_2d (spacing weight : Vector3d N) : Vector2d N :=
  let b := v3z spacing in
  let c := Vector3d_Magnitude spacing in
  let v := fabs (v3z weight) in
  let w := Vector3d_Magnitude weight in
  let y := b * (v / w) in
  mkVector2d (fsqrt (fpow c #2 - fpow y #2)) y.

(** catenary.cc 925-943: never fails *)
Definition c3_UpdateCatenary2d (c : Catenary3d) : Catenary3d :=
  let s := spacing_2d (c3_spacing c) (c3_weight c) in
  mkCatenary3d (c2_set_weight (c2_set_spacing (c3_catenary_2d c) s) (Vector3d_Magnitude (c3_weight c)))
    (c3_direction c) true (c3_spacing c) (c3_weight c).

(** The start of the queries, e.g. catenary.cc 506-508, with IsUpdated and Update
    (908-923). *)
Definition c3_ensure (c : Catenary3d) : Catenary3d :=
  if c3_is_updated c then c else c3_UpdateCatenary2d c.

(** The state after a query: the 2D catenary is refreshed too if the query uses it
    (all queries but Constant and SwingAngle do). *)
Definition c3_after (c : Catenary3d) (uses_2d : bool) : Catenary3d :=
  let c := c3_ensure c in
  if uses_2d then
    mkCatenary3d (c2_ensure (c3_catenary_2d c)) (c3_direction c) (c3_is_updated c) (c3_spacing c) (c3_weight c)
  else c.

(** catenary.cc 503-511 *)
Definition c3_Constant (c : Catenary3d) : N := c2_Constant (c3_catenary_2d (c3_ensure c)).

(** catenary.cc 566-600 *)
Definition c3_CoordinateChord (c : Catenary3d) (position_fraction : N) : Point3d N :=
  let c := c3_ensure c in
  let chord := c2_CoordinateChord (c3_catenary_2d c) position_fraction true in
  let vector := mkVector3d (p2x chord - #0) #0 (p2y chord - #0) in
  let angle := Vector3d_Angle (c3_spacing c) PlXz false
               - Vector2d_Angle (c2_spacing (c3_catenary_2d c)) false in
  let vector := Vector3d_Rotate vector PlXz angle in
  mkPoint3d (v3x vector) (v3y vector) (v3z vector).

(** catenary.cc 517-564 *)
Definition c3_Coordinate (c : Catenary3d) (position_fraction : N) : Point3d N :=
  let c := c3_ensure c in
  let curve := c2_Coordinate (c3_catenary_2d c) position_fraction true in
  let chord := c2_CoordinateChord (c3_catenary_2d c) position_fraction true in
  let coord_3d_chord := c3_CoordinateChord c position_fraction in
  let vector := mkVector3d (p2x curve - p2x chord) #0 (p2y curve - p2y chord) in
  let angle := Vector3d_Angle (c3_spacing c) PlXz false
               - Vector2d_Angle (c2_spacing (c3_catenary_2d c)) false in
  let vector := Vector3d_Rotate vector PlXz angle in
  let angle := Vector3d_Angle (c3_weight c) PlZy false in
  let angle := match c3_direction c with ADNegative => angle * #(-1) | _ => angle end in
  let vector := Vector3d_Rotate vector PlYz angle in
  mkPoint3d (p3x coord_3d_chord + v3x vector) (p3y coord_3d_chord + v3y vector)
            (p3z coord_3d_chord + v3z vector).

(** catenary.cc 602-610 *)
Definition c3_Length (c : Catenary3d) : N := c2_Length (c3_catenary_2d (c3_ensure c)).
(** catenary.cc 612-618 *)
Definition c3_LengthSlack (c : Catenary3d) : N := c2_LengthSlack (c3_catenary_2d (c3_ensure c)).
(** catenary.cc 620-626 *)
Definition c3_PositionFractionOrigin (c : Catenary3d) : N :=
  c2_PositionFractionOrigin (c3_catenary_2d (c3_ensure c)).
(** catenary.cc 628-634 *)
Definition c3_PositionFractionSagPoint (c : Catenary3d) : N :=
  c2_PositionFractionSagPoint (c3_catenary_2d (c3_ensure c)).
(** catenary.cc 636-642 *)
Definition c3_Sag (c : Catenary3d) : N := c2_Sag (c3_catenary_2d (c3_ensure c)).
(** catenary.cc 644-650 *)
Definition c3_SagAt (c : Catenary3d) (p : N) : N := c2_SagAt (c3_catenary_2d (c3_ensure c)) p.

(** catenary.cc 652-663 *)
Definition c3_SwingAngle (c : Catenary3d) : N :=
  let c := c3_ensure c in
  rad2deg (fatan (v3y (c3_weight c) / v3z (c3_weight c))).

(** catenary.cc 700-741 *)
Definition c3_TangentVector (c : Catenary3d) (position_fraction : N) (direction : AxisDirectionType) : Vector3d N :=
  let c := c3_ensure c in
  let t := c2_TangentVector (c3_catenary_2d c) position_fraction direction in
  let vector := mkVector3d (v2x t) #0 (v2y t) in
  let vector :=
    if negb (v3z (c3_spacing c) =? #0) && negb (v3y (c3_weight c) =? #0) then
      Vector3d_Rotate vector PlXz
        (Vector3d_Angle (c3_spacing c) PlXz true - Vector2d_Angle (c2_spacing (c3_catenary_2d c)) true)
    else vector in
  if negb (v3y (c3_weight c) =? #0) then
    let angle := c3_SwingAngle c in
    let angle := match c3_direction c with ADNegative => angle * #(-1) | _ => angle end in
    Vector3d_Rotate vector PlYz angle
  else vector.

(** catenary.cc 665-682 *)
Definition c3_TangentAngleTransverse (c : Catenary3d) (p : N) (direction : AxisDirectionType) : N :=
  let c := c3_ensure c in
  let t := c3_TangentVector c p direction in
  Vector3d_Angle (mkVector3d (v3x t) (fabs (v3y t)) (fabs (v3z t))) PlZy true.

(** catenary.cc 684-698 *)
Definition c3_TangentAngleVertical (c : Catenary3d) (p : N) (direction : AxisDirectionType) : N :=
  let c := c3_ensure c in
  let t := c3_TangentVector c p direction in
  Vector3d_Angle (mkVector3d (fabs (v3x t)) (v3y t) (v3z t)) PlXz true.

(** catenary.cc 743-749 *)
Definition c3_Tension (c : Catenary3d) (p : N) : N := c2_Tension (c3_catenary_2d (c3_ensure c)) p.

(** catenary.cc 751-769 *)
Definition c3_TensionVector (c : Catenary3d) (p : N) (direction : AxisDirectionType) : Vector3d N :=
  let c := c3_ensure c in
  Vector3d_Scale (c3_TangentVector c p direction) (c2_Tension (c3_catenary_2d c) p).

(** catenary.cc 771-777 *)
Definition c3_TensionAverage (c : Catenary3d) (num_points : Z) : N :=
  c2_TensionAverage (c3_catenary_2d (c3_ensure c)) num_points.
(** catenary.cc 779-785 *)
Definition c3_TensionMax (c : Catenary3d) : N := c2_TensionMax (c3_catenary_2d (c3_ensure c)).

(** catenary.cc 787-872: the checks before the update *)
Definition c3_inputs_valid (c : Catenary3d) : bool :=
  negb ((v3x (c3_spacing c) <=? #0) || negb (v3y (c3_spacing c) =? #0)
        || (#10000 <? fabs (v3z (c3_spacing c))) || (#2000 <=? fabs (v3z (c3_spacing c)))
        || negb (v3x (c3_weight c) =? #0) || (v3y (c3_weight c) <? #0)
        || (v3z (c3_weight c) <=? #0)).

(** catenary.cc 787-872 *)
Definition c3_Validate (c : Catenary3d) : bool :=
  if c3_inputs_valid c then c2_Validate (c3_catenary_2d (c3_ensure c)) else false.

(** The state after Validate: the update happens only after the checks. *)
Definition c3_after_Validate (c : Catenary3d) : Catenary3d :=
  if c3_inputs_valid c then c3_ensure c else c.

(** catenary.cc 878-880 *)
Definition c3_set_direction (c : Catenary3d) (d : AxisDirectionType) : Catenary3d :=
  mkCatenary3d (c3_catenary_2d c) d (c3_is_updated c) (c3_spacing c) (c3_weight c).
(** catenary.cc 882-886 *)
Definition c3_set_spacing (c : Catenary3d) (s : Vector3d N) : Catenary3d :=
  mkCatenary3d (c3_catenary_2d c) (c3_direction c) false s (c3_weight c).
(** catenary.cc 888-890 *)
Definition c3_set_tension (c : Catenary3d) (h : N) : Catenary3d :=
  mkCatenary3d (c2_set_tension (c3_catenary_2d c) h) (c3_direction c) (c3_is_updated c) (c3_spacing c) (c3_weight c).
(** catenary.cc 892-896 *)
Definition c3_set_weight (c : Catenary3d) (w : Vector3d N) : Catenary3d :=
  mkCatenary3d (c3_catenary_2d c) (c3_direction c) false (c3_spacing c) w.

(** catenary.cc 902-904 *)
Definition c3_tension_horizontal (c : Catenary3d) : N := c2_tension (c3_catenary_2d c).

(** ** Histories of calls on one object: setters and queries. *)
Inductive C2Call : Type :=
| C2SetSpacing (s : Vector2d N) | C2SetTension (h : N) | C2SetWeight (w : N)
| C2Query          (** any query that refreshes the members *)
| C2Validate.      (** also Constant and the getters: no refresh *)

Definition c2_call (c : Catenary2d) (k : C2Call) : Catenary2d :=
  match k with
  | C2SetSpacing s => c2_set_spacing c s
  | C2SetTension h => c2_set_tension c h
  | C2SetWeight w => c2_set_weight c w
  | C2Query => c2_ensure c
  | C2Validate => c
  end.

Definition c2_run (c : Catenary2d) (ks : list C2Call) : Catenary2d := fold_left c2_call ks c.

Inductive C3Call : Type :=
| C3SetDirection (d : AxisDirectionType) | C3SetSpacing (s : Vector3d N)
| C3SetTension (h : N) | C3SetWeight (w : Vector3d N)
| C3Query (uses_2d : bool)
| C3Validate.

Definition c3_call (c : Catenary3d) (k : C3Call) : Catenary3d :=
  match k with
  | C3SetDirection d => c3_set_direction c d
  | C3SetSpacing s => c3_set_spacing c s
  | C3SetTension h => c3_set_tension c h
  | C3SetWeight w => c3_set_weight c w
  | C3Query u => c3_after c u
  | C3Validate => c3_after_Validate c
  end.

Definition c3_run (c : Catenary3d) (ks : list C3Call) : Catenary3d := fold_left c3_call ks c.

End Catenary.

Arguments Catenary2d : clear implicits.
Arguments Catenary3d : clear implicits.
Arguments C2Call : clear implicits.
Arguments C3Call : clear implicits.
