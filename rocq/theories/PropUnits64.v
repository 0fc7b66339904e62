(** Properties C153 and C154, in double precision for every accurate std::pow. *)
From Coq Require Import ZArith Bool Reals Lra Lia.
From Flocq Require Import Core.Core IEEE754.BinarySingleNaN.
From Verif Require Import Num NumFacts ModelBase SpecUnits SpecUnits64 ProofUnits ProofUnits64 ProofUnits64T ProofUnits64C SamplePow.
Open Scope R_scope.

(** C153: the converted double is the same quantity up to a relative error of 2^-49. *)
Theorem units_double_accurate :
  forall lm, accurate_pow lm ->
  forall (v : b64) e n a b, ordinary v -> (-4 <= e <= 4)%Z ->
    (forall t, length_sizes t = Some (a, b) -> nearly_same_quantity (bpow radix2 (-49)) a b e n v (ConvertLength (N := B64 lm) v t e n)) /\
    (forall t, force_sizes t = Some (a, b) -> nearly_same_quantity (bpow radix2 (-49)) a b e n v (ConvertForce (N := B64 lm) v t e n)) /\
    (forall t, stress_sizes t = Some (a, b) -> nearly_same_quantity (bpow radix2 (-49)) a b e n v (ConvertStress (N := B64 lm) v t e n)) /\
    (forall t, angle_sizes t = Some (a, b) -> nearly_same_quantity (bpow radix2 (-49)) a b e n v (ConvertAngle (N := B64 lm) v t e n)).
Proof. exact all_accurate. Qed.
Print Assumptions units_double_accurate.

(** C153: temperatures. *)
Theorem units_double_temperature :
  forall lm, accurate_pow lm ->
  forall (v : b64) t f g, temperature_scales t = Some (f, g) -> reading v ->
    is_finite (ConvertTemperature (N := B64 lm) v t 1 true) = true /\
    Rabs (g (B2R (ConvertTemperature (N := B64 lm) v t 1 true)) - f (B2R v)) <= bpow radix2 (-48) * (Rabs (B2R v) + 500).
Proof. exact temperature_within. Qed.
Print Assumptions units_double_temperature.

(** C154: there and back the double is returned up to a relative error of 2^-48. *)
Theorem units_double_round_trip_partial :
  forall lm, accurate_pow lm ->
  forall (v : b64) e n, ordinary v -> (-4 <= e <= 4)%Z ->
    (forall t t', length_opposite t t' -> nearly (bpow radix2 (-48)) (ConvertLength (N := B64 lm) (ConvertLength (N := B64 lm) v t e n) t' e n) v) /\
    (forall t t', force_opposite t t' -> nearly (bpow radix2 (-48)) (ConvertForce (N := B64 lm) (ConvertForce (N := B64 lm) v t e n) t' e n) v) /\
    (forall t t', stress_opposite t t' -> nearly (bpow radix2 (-48)) (ConvertStress (N := B64 lm) (ConvertStress (N := B64 lm) v t e n) t' e n) v) /\
    (forall t t', angle_opposite t t' -> nearly (bpow radix2 (-48)) (ConvertAngle (N := B64 lm) (ConvertAngle (N := B64 lm) v t e n) t' e n) v).
Proof. exact all_back. Qed.
Print Assumptions units_double_round_trip_partial.

(** C154: temperatures there and back. *)
Theorem units_double_temperature_round_trip_partial :
  forall lm, accurate_pow lm ->
  forall (v : b64) t t', temperature_opposite t t' -> is_finite v = true -> Rabs (B2R v) <= 400000 ->
    is_finite (ConvertTemperature (N := B64 lm) (ConvertTemperature (N := B64 lm) v t 1 true) t' 1 true) = true /\
    Rabs (B2R (ConvertTemperature (N := B64 lm) (ConvertTemperature (N := B64 lm) v t 1 true) t' 1 true) - B2R v)
      <= bpow radix2 (-45) * (Rabs (B2R v) + 500).
Proof. exact temperature_back. Qed.
Print Assumptions units_double_temperature_round_trip_partial.

(** C154 refuted: one foot in metres and back in feet is not one foot, with every
    pow that returns the base for the exponent 1. *)
Theorem units_double_round_trip_refuted :
  forall lm, (forall x, lm_pow lm x (b64_ofZ 1) = x) ->
    Beqb (ConvertLength (N := B64 lm) (ConvertLength (N := B64 lm) (b64_ofZ 1) FeetToMeters 1 true) MetersToFeet 1 true) (b64_ofZ 1) = false /\
    Beqb (ConvertTemperature (N := B64 lm) (ConvertTemperature (N := B64 lm) (b64_ofZ 10) FahrenheitToCelsius 1 true) CelsiusToFahrenheit 1 true) (b64_ofZ 10) = false.
Proof. exact not_exact. Qed.
Print Assumptions units_double_round_trip_refuted.

(** ** Concrete cases *)
Example units_double_case :
  accurate_pow precise /\ ordinary (b64_ofZ 10000) /\ length_sizes FeetToMeters = Some (foot, meter) /\
  Beqb (ConvertLength (N := B64 precise) (b64_ofZ 10000) FeetToMeters 1 true) (b64_ofZ 3048) = true /\
  Beqb (ConvertStress (N := B64 precise) (b64_ofZ 3) PsiToPsf (-1) false) (b64_ofZ 432) = true /\
  reading (b64_ofZ 100) /\ temperature_scales CelsiusToFahrenheit = Some (kelvin_of_celsius, kelvin_of_fahrenheit) /\
  Beqb (ConvertTemperature (N := B64 precise) (b64_ofZ 100) CelsiusToFahrenheit 1 true) (b64_ofZ 212) = true.
Proof. exact double_case. Qed.

Example units_double_refuted_case : exists lm, forall x, lm_pow lm x (b64_ofZ 1) = x.
Proof. exists (mkLibm (fun x _ => x) SampleElong.id64 SampleElong.id64 SampleElong.id64 SampleElong.id64 SampleElong.id64 SampleElong.id64 SampleElong.id64 SampleElong.id64 SampleElong.id64). reflexivity. Qed.
