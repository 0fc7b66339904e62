(** Model of /repo/src/base/units.cc, /repo/src/base/vector.cc,
    /repo/include/models/base/point.h and the numeric part of
    /repo/src/base/helper.cc.  No proofs in this file. *)
From Coq Require Import ZArith Bool List.
From Verif Require Import Num.
Import ListNotations.
Open Scope num_scope.

Section Base.
Context {N : Num}.

(** ** Points: include/models/base/point.h 11-37 and 42-76 *)
Record Point2d : Type := mkPoint2d { p2x : N; p2y : N }.
Record Point3d : Type := mkPoint3d { p3x : N; p3y : N; p3z : N }.

(** point.h 15-18: default constructor *)
Definition Point2d_default : Point2d := mkPoint2d ferr ferr.
(** point.h 46-50: default constructor *)
Definition Point3d_default : Point3d := mkPoint3d ferr ferr ferr.

(** ** Units: include/models/base/units.h 17-67 (enums) *)
Inductive AngleConversionType : Type :=
| ACNull | DegreesToRadians | RadiansToDegrees.

Inductive ForceConversionType : Type :=
| FCNull | NewtonsToPounds | PoundsToNewtons.

Inductive LengthConversionType : Type :=
| LCNull | CentimetersToMeters | FeetToInches | FeetToMeters | FeetToMiles
| InchesToFeet | KilometersToMeters | MetersToCentimeters | MetersToFeet
| MetersToKilometers | MetersToMillimeters | MilesToFeet | MillimetersToMeters.

Inductive StressConversionType : Type :=
| SCNull | MegaPascalToPascal | PascalToMegaPascal | PascalToPsf | PsfToPascal
| PsfToPsi | PsiToPsf.

Inductive TemperatureConversionType : Type :=
| TCNull | CelsiusToFahrenheit | CelsiusToKelvin | FahrenheitToCelsius
| FahrenheitToRankine | KelvinToCelsius | KelvinToRankine
| RankineToFahrenheit | RankineToKelvin.

(** units.h 107-113 *)
Inductive UnitSystem : Type := USNull | Imperial | Metric.

(** units.h 115: 1.0 / 0.0310810 *)
Definition kGravityImperial : N := #1 / flit 310810 (-7).
(** units.h 116: 1.0 / 0.101972 *)
Definition kGravityMetric : N := #1 / flit 101972 (-6).
(** units.h 117: 3.14159265358979 (a truncated decimal, not pi) *)
Definition kPi : N := flit 314159265358979 (-14).

(** units.cc 11-12 *)
Definition kAngleDegreesToRadians : N := kPi / #180.
Definition kAngleRadiansToDegrees : N := #180 / kPi.
(** units.cc 15-16 *)
Definition kForceNewtonsToPounds : N := #1 / flit 44482216152605 (-13).
Definition kForcePoundsToNewtons : N := flit 44482216152605 (-13).
(** units.cc 19-30 *)
Definition kLengthCentimetersToMeters : N := #1 / #100.
Definition kLengthFeetToInches : N := #12.
Definition kLengthFeetToMeters : N := flit 3048 (-4).
Definition kLengthFeetToMiles : N := #1 / #5280.
Definition kLengthInchesToFeet : N := #1 / #12.
Definition kLengthKilometersToMeters : N := #1000.
Definition kLengthMetersToCentimeters : N := #100.
Definition kLengthMetersToFeet : N := #1 / flit 3048 (-4).
Definition kLengthMetersToKilometers : N := #1 / #1000.
Definition kLengthMetersToMillimeters : N := #1000.
Definition kLengthMilesToFeet : N := #5280.
Definition kLengthMillimetersToMeters : N := #1 / #1000.
(** units.cc 33-38 *)
Definition kStressMegaPascalToPascal : N := #1000000.
Definition kStressPascalToMegaPascal : N := #1 / #1000000.
Definition kStressPascalToPsf : N := #1 / flit 4788026 (-5).
Definition kStressPsfToPascal : N := flit 4788026 (-5).
Definition kStressPsfToPsi : N := #1 / #144.
Definition kStressPsiToPsf : N := #144.
(** units.cc 41-49 *)
Definition kTemperatureKelvinToRankine : N := flit 18 (-1).
Definition kTemperatureRankineToKelvin : N := #1 / flit 18 (-1).
Definition kTemperatureShiftCelsiusToFahrenheit : N := #32.
Definition kTemperatureShiftCelsiusToKelvin : N := flit 27315 (-2).
Definition kTemperatureShiftFahrenheitToCelsius : N := #(-32).
Definition kTemperatureShiftFahrenheitToRankine : N := flit 45967 (-2).
Definition kTemperatureShiftKelvinToCelsius : N := flit (-27315) (-2).
Definition kTemperatureShiftRankineToFahrenheit : N := flit (-45967) (-2).

(** units.cc 64-78 *)
Definition Convert (value factor exponent : N) (is_numerator : bool) : N :=
  let factor_adj := fpow factor exponent in
  let factor_adj := if is_numerator then factor_adj else #1 / factor_adj in
  value * factor_adj.

(** units.cc 80-91 (defaults exponent = 1, is_numerator = true in units.h) *)
Definition ConvertAngle (value : N) (type : AngleConversionType)
    (exponent : Z) (is_numerator : bool) : N :=
  match type with
  | DegreesToRadians => Convert value kAngleDegreesToRadians #exponent is_numerator
  | RadiansToDegrees => Convert value kAngleRadiansToDegrees #exponent is_numerator
  | ACNull => ferr
  end.

(** units.cc 93-104 *)
Definition ConvertForce (value : N) (type : ForceConversionType)
    (exponent : Z) (is_numerator : bool) : N :=
  match type with
  | NewtonsToPounds => Convert value kForceNewtonsToPounds #exponent is_numerator
  | PoundsToNewtons => Convert value kForcePoundsToNewtons #exponent is_numerator
  | FCNull => ferr
  end.

(** units.cc 106-137 *)
Definition ConvertLength (value : N) (type : LengthConversionType)
    (exponent : Z) (is_numerator : bool) : N :=
  match type with
  | CentimetersToMeters => Convert value kLengthCentimetersToMeters #exponent is_numerator
  | FeetToInches => Convert value kLengthFeetToInches #exponent is_numerator
  | FeetToMeters => Convert value kLengthFeetToMeters #exponent is_numerator
  | FeetToMiles => Convert value kLengthFeetToMiles #exponent is_numerator
  | InchesToFeet => Convert value kLengthInchesToFeet #exponent is_numerator
  | KilometersToMeters => Convert value kLengthKilometersToMeters #exponent is_numerator
  | MetersToCentimeters => Convert value kLengthMetersToCentimeters #exponent is_numerator
  | MetersToFeet => Convert value kLengthMetersToFeet #exponent is_numerator
  | MetersToKilometers => Convert value kLengthMetersToKilometers #exponent is_numerator
  | MetersToMillimeters => Convert value kLengthMetersToMillimeters #exponent is_numerator
  | MilesToFeet => Convert value kLengthMilesToFeet #exponent is_numerator
  | MillimetersToMeters => Convert value kLengthMillimetersToMeters #exponent is_numerator
  | LCNull => ferr
  end.

(** units.cc 139-158 *)
Definition ConvertStress (value : N) (type : StressConversionType)
    (exponent : Z) (is_numerator : bool) : N :=
  match type with
  | MegaPascalToPascal => Convert value kStressMegaPascalToPascal #exponent is_numerator
  | PascalToMegaPascal => Convert value kStressPascalToMegaPascal #exponent is_numerator
  | PascalToPsf => Convert value kStressPascalToPsf #exponent is_numerator
  | PsfToPascal => Convert value kStressPsfToPascal #exponent is_numerator
  | PsfToPsi => Convert value kStressPsfToPsi #exponent is_numerator
  | PsiToPsf => Convert value kStressPsiToPsf #exponent is_numerator
  | SCNull => ferr
  end.

(** units.cc 160-191 *)
Definition ConvertTemperature (value : N) (type : TemperatureConversionType)
    (exponent : Z) (is_numerator : bool) : N :=
  match type with
  | CelsiusToFahrenheit =>
      Convert value kTemperatureKelvinToRankine #exponent is_numerator
      + kTemperatureShiftCelsiusToFahrenheit
  | CelsiusToKelvin => value + kTemperatureShiftCelsiusToKelvin
  | FahrenheitToCelsius =>
      Convert (value + kTemperatureShiftFahrenheitToCelsius)
              kTemperatureRankineToKelvin #exponent is_numerator
  | FahrenheitToRankine => value + kTemperatureShiftFahrenheitToRankine
  | KelvinToCelsius => value + kTemperatureShiftKelvinToCelsius
  | KelvinToRankine => Convert value kTemperatureKelvinToRankine #exponent is_numerator
  | RankineToFahrenheit => value + kTemperatureShiftRankineToFahrenheit
  | RankineToKelvin => Convert value kTemperatureRankineToKelvin #exponent is_numerator
  | TCNull => ferr
  end.

(** Calls with the default arguments of units.h 119-188. *)
Definition rad2deg (v : N) : N := ConvertAngle v RadiansToDegrees 1 true.
Definition deg2rad (v : N) : N := ConvertAngle v DegreesToRadians 1 true.

(** ** helper.cc *)
(** helper.cc 52-55 *)
Definition LinearY (x1 y1 x2 y2 x : N) : N :=
  y1 + (x - x1) * ((y2 - y1) / (x2 - x1)).

(** helper.cc 72-74 *)
Definition Round (number : N) (precision : Z) : N :=
  fround (number * fpow #10 #precision) / fpow #10 #precision.

(** ** Vector2d: include/models/base/vector.h 43-112 *)
Record Vector2d : Type := mkVector2d { v2x : N; v2y : N }.

(** vector.cc 24-86.  The comparisons are those of the code, in its order. *)
Definition Vector2d_Angle (v : Vector2d) (is_enabled_negative_angles : bool) : N :=
  let x := v2x v in
  let y := v2y v in
  let adjust (angle : N) : N :=
    if (#180 <? angle) && is_enabled_negative_angles then angle - #360 else angle in
  if (x =? #0) || (y =? #0) then
    if x =? #0 then
      if #0 <? y then adjust (rad2deg (kPi / #2))
      else if y <? #0 then adjust (rad2deg (#3 * (kPi / #2)))
      else ferr
    else
      if #0 <? x then adjust #0
      else if x <? #0 then adjust (rad2deg (#2 * (kPi / #2)))
      else ferr
  else
    if #0 <=? y then
      if #0 <=? x then adjust (rad2deg (fatan (y / x)))
      else adjust (#180 - rad2deg (fabs (fatan (y / x))))
    else
      if x <=? #0 then adjust (#180 + rad2deg (fabs (fatan (y / x))))
      else adjust (#360 - rad2deg (fabs (fatan (y / x)))).

(** vector.cc 88-90 *)
Definition Vector2d_Magnitude (v : Vector2d) : N :=
  fsqrt (fpow (v2x v) #2 + fpow (v2y v) #2).

(** vector.cc 95-113 *)
Definition Vector2d_Rotate (v : Vector2d) (angle_rotation : N) : Vector2d :=
  if fabs angle_rotation <? flit 5 (-5) then v
  else
    let magnitude := Vector2d_Magnitude v in
    let angle := Vector2d_Angle v false in
    let angle_new := angle + angle_rotation in
    let angle_radians := deg2rad angle_new in
    mkVector2d (magnitude * fcos angle_radians) (magnitude * fsin angle_radians).

(** vector.cc 115-118 *)
Definition Vector2d_Scale (v : Vector2d) (factor_scale : N) : Vector2d :=
  mkVector2d (v2x v * factor_scale) (v2y v * factor_scale).

(** ** Vector3d: include/models/base/vector.h 7-16 and 122-214 *)
Record Vector3d : Type := mkVector3d { v3x : N; v3y : N; v3z : N }.

Inductive Plane2dType : Type := PlNull | PlXy | PlXz | PlYx | PlYz | PlZx | PlZy.

(** vector.h 21-25 *)
Inductive AxisDirectionType : Type := ADNull | ADNegative | ADPositive.

(** vector.cc 136-140: default constructor *)
Definition Vector3d_default : Vector3d := mkVector3d ferr ferr ferr.

(** vector.cc 153-182: the planar components selected by a plane *)
Definition Vector3d_plane (v : Vector3d) (plane : Plane2dType) : option Vector2d :=
  match plane with
  | PlXy => Some (mkVector2d (v3x v) (v3y v))
  | PlXz => Some (mkVector2d (v3x v) (v3z v))
  | PlYx => Some (mkVector2d (v3y v) (v3x v))
  | PlYz => Some (mkVector2d (v3y v) (v3z v))
  | PlZx => Some (mkVector2d (v3z v) (v3x v))
  | PlZy => Some (mkVector2d (v3z v) (v3y v))
  | PlNull => None
  end.

(** vector.cc 153-182 *)
Definition Vector3d_Angle (v : Vector3d) (plane : Plane2dType) (neg : bool) : N :=
  match Vector3d_plane v plane with
  | Some v2 => Vector2d_Angle v2 neg
  | None => ferr
  end.

(** vector.cc 184-186 *)
Definition Vector3d_Magnitude (v : Vector3d) : N :=
  fsqrt (fpow (v3x v) #2 + fpow (v3y v) #2 + fpow (v3z v) #2).

(** vector.cc 191-248 *)
Definition Vector3d_Rotate (v : Vector3d) (plane : Plane2dType) (angle : N) : Vector3d :=
  if fabs angle <? flit 5 (-5) then v
  else
    match Vector3d_plane v plane with
    | None => v
    | Some v2 =>
        let r := Vector2d_Rotate v2 angle in
        match plane with
        | PlXy => mkVector3d (v2x r) (v2y r) (v3z v)
        | PlXz => mkVector3d (v2x r) (v3y v) (v2y r)
        | PlYx => mkVector3d (v2y r) (v2x r) (v3z v)
        | PlYz => mkVector3d (v3x v) (v2x r) (v2y r)
        | PlZx => mkVector3d (v2y r) (v3y v) (v2x r)
        | PlZy => mkVector3d (v3x v) (v2y r) (v2x r)
        | PlNull => v
        end
    end.

(** vector.cc 251-255 *)
Definition Vector3d_Scale (v : Vector3d) (factor : N) : Vector3d :=
  mkVector3d (v3x v * factor) (v3y v * factor) (v3z v * factor).

End Base.

Arguments Point2d : clear implicits.
Arguments Point3d : clear implicits.
Arguments Vector2d : clear implicits.
Arguments Vector3d : clear implicits.
