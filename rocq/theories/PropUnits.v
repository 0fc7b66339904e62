(** Properties C31, C32 and C62, in exact real arithmetic. *)
From Coq Require Import ZArith Reals Lra.
From Verif Require Import Num NumFacts ModelBase SpecUnits ProofReal ProofUnits.
Open Scope R_scope.

(** C31: lengths. *)
Theorem units_length_round_trip :
  forall (v : R) t t' e n, length_opposite t t' ->
    ConvertLength (N := RNum) (ConvertLength (N := RNum) v t e n) t' e n = v.
Proof. exact length_round_trip. Qed.
Print Assumptions units_length_round_trip.

(** C31: forces. *)
Theorem units_force_round_trip :
  forall (v : R) t t' e n, force_opposite t t' ->
    ConvertForce (N := RNum) (ConvertForce (N := RNum) v t e n) t' e n = v.
Proof. exact force_round_trip. Qed.
Print Assumptions units_force_round_trip.

(** C31: stresses. *)
Theorem units_stress_round_trip :
  forall (v : R) t t' e n, stress_opposite t t' ->
    ConvertStress (N := RNum) (ConvertStress (N := RNum) v t e n) t' e n = v.
Proof. exact stress_round_trip. Qed.
Print Assumptions units_stress_round_trip.

(** C31: angles. *)
Theorem units_angle_round_trip :
  forall (v : R) t t' e n, angle_opposite t t' ->
    ConvertAngle (N := RNum) (ConvertAngle (N := RNum) v t e n) t' e n = v.
Proof. exact angle_round_trip. Qed.
Print Assumptions units_angle_round_trip.

(** C31: temperatures, here for every exponent. *)
Theorem units_temperature_round_trip :
  forall (v : R) t t' e n, temperature_opposite t t' ->
    ConvertTemperature (N := RNum) (ConvertTemperature (N := RNum) v t e n) t' e n = v.
Proof. exact temperature_round_trip. Qed.
Print Assumptions units_temperature_round_trip.

(** C32: the denominator undoes the numerator. *)
Theorem units_denominator_undoes_numerator :
  forall (v : R) e,
    (forall t, t <> LCNull ->
      ConvertLength (N := RNum) (ConvertLength (N := RNum) v t e true) t e false = v /\
      ConvertLength (N := RNum) (ConvertLength (N := RNum) v t e false) t e true = v) /\
    (forall t, t <> FCNull ->
      ConvertForce (N := RNum) (ConvertForce (N := RNum) v t e true) t e false = v /\
      ConvertForce (N := RNum) (ConvertForce (N := RNum) v t e false) t e true = v) /\
    (forall t, t <> SCNull ->
      ConvertStress (N := RNum) (ConvertStress (N := RNum) v t e true) t e false = v /\
      ConvertStress (N := RNum) (ConvertStress (N := RNum) v t e false) t e true = v) /\
    (forall t, t <> ACNull ->
      ConvertAngle (N := RNum) (ConvertAngle (N := RNum) v t e true) t e false = v /\
      ConvertAngle (N := RNum) (ConvertAngle (N := RNum) v t e false) t e true = v).
Proof.
  exact (fun v e => conj (fun t => length_undo v t e) (conj (fun t => force_undo v t e)
    (conj (fun t => stress_undo v t e) (fun t => angle_undo v t e)))).
Qed.
Print Assumptions units_denominator_undoes_numerator.

(** C32: exponents add. *)
Theorem units_exponents_add :
  forall (v : R) m n b,
    (forall t, t <> LCNull ->
      ConvertLength (N := RNum) (ConvertLength (N := RNum) v t m b) t n b = ConvertLength (N := RNum) v t (m + n) b) /\
    (forall t, t <> FCNull ->
      ConvertForce (N := RNum) (ConvertForce (N := RNum) v t m b) t n b = ConvertForce (N := RNum) v t (m + n) b) /\
    (forall t, t <> SCNull ->
      ConvertStress (N := RNum) (ConvertStress (N := RNum) v t m b) t n b = ConvertStress (N := RNum) v t (m + n) b) /\
    (forall t, t <> ACNull ->
      ConvertAngle (N := RNum) (ConvertAngle (N := RNum) v t m b) t n b = ConvertAngle (N := RNum) v t (m + n) b).
Proof.
  exact (fun v m n b => conj (fun t => length_add v t m n b) (conj (fun t => force_add v t m n b)
    (conj (fun t => stress_add v t m n b) (fun t => angle_add v t m n b)))).
Qed.
Print Assumptions units_exponents_add.

(** C62: the result is the same quantity in the other unit. *)
Theorem units_keep_quantity :
  forall (v : R) e n a b,
    (forall t, length_sizes t = Some (a, b) -> same_quantity a b e n v (ConvertLength (N := RNum) v t e n)) /\
    (forall t, force_sizes t = Some (a, b) -> same_quantity a b e n v (ConvertForce (N := RNum) v t e n)) /\
    (forall t, stress_sizes t = Some (a, b) -> same_quantity a b e n v (ConvertStress (N := RNum) v t e n)) /\
    (forall t, angle_sizes t = Some (a, b) -> same_quantity a b e n v (ConvertAngle (N := RNum) v t e n)).
Proof. exact all_quantities. Qed.
Print Assumptions units_keep_quantity.

(** C62: the result is the same temperature on the other scale. *)
Theorem units_keep_temperature :
  forall (v : R) t f g, temperature_scales t = Some (f, g) ->
    g (ConvertTemperature (N := RNum) v t 1 true) = f v.
Proof. exact temperature_scale. Qed.
Print Assumptions units_keep_temperature.

(** C62: the rounded constants of the code are close to the exact ones. *)
Theorem units_rounded_constants :
  (forall v : R,
    Rabs (ConvertAngle (N := RNum) v DegreesToRadians 1 true - v * PI / 180) <= Rabs v * (4 / 1000000000000000) / 180 /\
    Rabs (ConvertAngle (N := RNum) v RadiansToDegrees 1 true - v * 180 / PI) <= Rabs v * (8 / 100000000000000)) /\
  Rabs (psf - pound / (foot * foot)) <= 3 / 100000000 * psf.
Proof. exact (conj angle_pi psf_close). Qed.
Print Assumptions units_rounded_constants.

(** ** Concrete cases *)
Example units_case :
  length_opposite FeetToMiles MilesToFeet /\ temperature_opposite CelsiusToFahrenheit FahrenheitToCelsius /\
  length_sizes FeetToMiles = Some (foot, mile) /\ MilesToFeet <> LCNull /\
  ConvertLength (N := RNum) 2 MilesToFeet 1 true = 10560 /\
  ConvertLength (N := RNum) 3 FeetToInches 2 true = 432 /\
  ConvertLength (N := RNum) 24 FeetToInches 1 false = 2 /\
  ConvertTemperature (N := RNum) 100 CelsiusToFahrenheit 1 true = 212.
Proof.
  split; [constructor|]. split; [constructor|]. split; [reflexivity|]. split; [discriminate|].
  unfold ConvertLength, ConvertTemperature. rewrite !Convert_R.
  unfold kLengthMilesToFeet, kLengthFeetToInches, kTemperatureKelvinToRankine, kTemperatureShiftCelsiusToFahrenheit.
  rn. rewrite ?flit_R. simpl. lra.
Qed.
