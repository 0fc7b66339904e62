(** Specification of unit conversions by the size of each unit, independent of the
    factors in units.cc. *)
From Coq Require Import ZArith Reals.
From Verif Require Import Num ModelBase.
Open Scope R_scope.

(** Metres in a length unit.  The foot is 0.3048 m by definition, the inch a
    twelfth of it, the mile 5280 feet. *)
Definition centimeter : R := / 100.
Definition foot : R := 3048 / 10000.
Definition inch : R := 254 / 10000.
Definition mile : R := 1609344 / 1000.
Definition meter : R := 1.
Definition kilometer : R := 1000.
Definition millimeter : R := / 1000.

(** Size of the unit converted from and of the unit converted to. *)
Definition length_sizes (t : LengthConversionType) : option (R * R) :=
  match t with
  | LCNull => None
  | CentimetersToMeters => Some (centimeter, meter)
  | FeetToInches => Some (foot, inch)
  | FeetToMeters => Some (foot, meter)
  | FeetToMiles => Some (foot, mile)
  | InchesToFeet => Some (inch, foot)
  | KilometersToMeters => Some (kilometer, meter)
  | MetersToCentimeters => Some (meter, centimeter)
  | MetersToFeet => Some (meter, foot)
  | MetersToKilometers => Some (meter, kilometer)
  | MetersToMillimeters => Some (meter, millimeter)
  | MilesToFeet => Some (mile, foot)
  | MillimetersToMeters => Some (millimeter, meter)
  end.

(** Newtons: the pound-force is 0.45359237 kg times 9.80665 m/s^2. *)
Definition newton : R := 1.
Definition pound : R := (45359237 / 100000000) * (980665 / 100000).

Definition force_sizes (t : ForceConversionType) : option (R * R) :=
  match t with
  | FCNull => None
  | NewtonsToPounds => Some (newton, pound)
  | PoundsToNewtons => Some (pound, newton)
  end.

(** Pascals: the pound per square foot is rounded to seven digits in the code. *)
Definition pascal : R := 1.
Definition megapascal : R := 1000000.
Definition psf : R := 4788026 / 100000.
Definition psi : R := 144 * psf.

Definition stress_sizes (t : StressConversionType) : option (R * R) :=
  match t with
  | SCNull => None
  | MegaPascalToPascal => Some (megapascal, pascal)
  | PascalToMegaPascal => Some (pascal, megapascal)
  | PascalToPsf => Some (pascal, psf)
  | PsfToPascal => Some (psf, pascal)
  | PsfToPsi => Some (psf, psi)
  | PsiToPsf => Some (psi, psf)
  end.

(** Half turns: a degree is 1/180 of one; a radian is 1/pi, for the pi of the code. *)
Definition pi_code : R := 314159265358979 / 100000000000000.

Definition angle_sizes (t : AngleConversionType) : option (R * R) :=
  match t with
  | ACNull => None
  | DegreesToRadians => Some (/ 180, / pi_code)
  | RadiansToDegrees => Some (/ pi_code, / 180)
  end.

(** [v'] in units of size [b] is the same quantity as [v] in units of size [a],
    when the unit has the given exponent and stands in the numerator or in the
    denominator. *)
Definition same_quantity (a b : R) (exponent : Z) (is_numerator : bool) (v v' : R) : Prop :=
  if is_numerator then v * powerRZ a exponent = v' * powerRZ b exponent
  else v / powerRZ a exponent = v' / powerRZ b exponent.

(** Temperature scales: kelvins of a reading. *)
Definition kelvin_of_celsius (v : R) : R := v + 27315 / 100.
Definition kelvin_of_fahrenheit (v : R) : R := (v - 32) * (5 / 9) + 27315 / 100.
Definition kelvin_of_rankine (v : R) : R := v * (5 / 9).

Definition temperature_scales (t : TemperatureConversionType) : option ((R -> R) * (R -> R)) :=
  match t with
  | TCNull => None
  | CelsiusToFahrenheit => Some (kelvin_of_celsius, kelvin_of_fahrenheit)
  | CelsiusToKelvin => Some (kelvin_of_celsius, fun v => v)
  | FahrenheitToCelsius => Some (kelvin_of_fahrenheit, kelvin_of_celsius)
  | FahrenheitToRankine => Some (kelvin_of_fahrenheit, kelvin_of_rankine)
  | KelvinToCelsius => Some (fun v => v, kelvin_of_celsius)
  | KelvinToRankine => Some (fun v => v, kelvin_of_rankine)
  | RankineToFahrenheit => Some (kelvin_of_rankine, kelvin_of_fahrenheit)
  | RankineToKelvin => Some (kelvin_of_rankine, fun v => v)
  end.

(** Opposite conversions. *)
Inductive angle_opposite : AngleConversionType -> AngleConversionType -> Prop :=
| ao1 : angle_opposite DegreesToRadians RadiansToDegrees
| ao2 : angle_opposite RadiansToDegrees DegreesToRadians.

Inductive force_opposite : ForceConversionType -> ForceConversionType -> Prop :=
| fo1 : force_opposite NewtonsToPounds PoundsToNewtons
| fo2 : force_opposite PoundsToNewtons NewtonsToPounds.

Inductive length_opposite : LengthConversionType -> LengthConversionType -> Prop :=
| lo1 : length_opposite CentimetersToMeters MetersToCentimeters
| lo2 : length_opposite MetersToCentimeters CentimetersToMeters
| lo3 : length_opposite FeetToInches InchesToFeet
| lo4 : length_opposite InchesToFeet FeetToInches
| lo5 : length_opposite FeetToMeters MetersToFeet
| lo6 : length_opposite MetersToFeet FeetToMeters
| lo7 : length_opposite FeetToMiles MilesToFeet
| lo8 : length_opposite MilesToFeet FeetToMiles
| lo9 : length_opposite KilometersToMeters MetersToKilometers
| lo10 : length_opposite MetersToKilometers KilometersToMeters
| lo11 : length_opposite MillimetersToMeters MetersToMillimeters
| lo12 : length_opposite MetersToMillimeters MillimetersToMeters.

Inductive stress_opposite : StressConversionType -> StressConversionType -> Prop :=
| so1 : stress_opposite MegaPascalToPascal PascalToMegaPascal
| so2 : stress_opposite PascalToMegaPascal MegaPascalToPascal
| so3 : stress_opposite PascalToPsf PsfToPascal
| so4 : stress_opposite PsfToPascal PascalToPsf
| so5 : stress_opposite PsfToPsi PsiToPsf
| so6 : stress_opposite PsiToPsf PsfToPsi.

Inductive temperature_opposite : TemperatureConversionType -> TemperatureConversionType -> Prop :=
| to1 : temperature_opposite CelsiusToFahrenheit FahrenheitToCelsius
| to2 : temperature_opposite FahrenheitToCelsius CelsiusToFahrenheit
| to3 : temperature_opposite CelsiusToKelvin KelvinToCelsius
| to4 : temperature_opposite KelvinToCelsius CelsiusToKelvin
| to5 : temperature_opposite FahrenheitToRankine RankineToFahrenheit
| to6 : temperature_opposite RankineToFahrenheit FahrenheitToRankine
| to7 : temperature_opposite KelvinToRankine RankineToKelvin
| to8 : temperature_opposite RankineToKelvin KelvinToRankine.
