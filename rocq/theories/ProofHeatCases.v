(** Cases for the theorems on heat transfer. *)
From Coq Require Import ZArith Bool List Reals Lra.
From Verif Require Import Num NumFacts ModelBase ModelCable ModelThermal SpecThermal SpecHeat
  ProofReal ProofThermal ProofThermalReal ProofThermalCases ProofHeatCold.
Import ListNotations.
Open Scope R_scope.

(** [base3] with its diameter of one foot in metres. *)
Definition base3_m : Cable RNum :=
  mkCable (N := RNum) (1 : R) (1 : R) part part (foot : R) (1 / 2 : R) [rpt 25 1; rpt 50 2; rpt 75 5] (1 : R) (20 : R) (1 : R).

(** A breeze of 10 feet per second at 1000 feet with sun, in feet and in metres. *)
Definition breeze (angle speed : R) : ThermalRatingWeather RNum :=
  mkThermalRatingWeather (N := RNum) angle (1000 : R) (93 : R) speed (25 : R).
Definition breeze_m (angle speed : R) : ThermalRatingWeather RNum :=
  mkThermalRatingWeather (N := RNum) angle (foot * 1000 : R) (93 / (foot * foot) : R) (foot * speed : R) (25 : R).

Lemma base3_m_valid : trc_Validate (mkThermalRatingCable (Some base3_m)) = true.
Proof. unfold trc_Validate, Cable_Validate, component_valid, CableComponent_Validate, base3_m, part, rpt, foot. cbn. rn. rdec. reflexivity. Qed.

Lemma same_base3 : same_surface base3 base3_m.
Proof. constructor; cbn; lra. Qed.

Lemma same_breeze : forall a s, same_weather (breeze a s) (breeze_m a s).
Proof. intros a s. constructor; unfold breeze, breeze_m, foot; cbn; lra. Qed.

Lemma breeze_valid : forall a s, 0 <= a <= 90 -> 0 <= s -> tw_Validate (breeze a s) = true.
Proof. intros a s A S0. unfold tw_Validate, breeze. cbn. rn. rdec. reflexivity. Qed.

Lemma breeze_m_valid : forall a s, 0 <= a <= 90 -> 0 <= s -> tw_Validate (breeze_m a s) = true.
Proof.
  intros a s A S0. unfold tw_Validate, breeze_m, foot. cbn. rn. rdec. reflexivity.
Qed.

(** A cable of 15 degrees in air of 25 degrees, in binary64. *)
Definition zf (z : Z) : B64 strict := fofZ (N := B64 strict) z.
Definition part_f : CableComponent (B64 strict) :=
  mkCableComponent (N := B64 strict) (zf 500) (zf 0) [] [] (zf 0) (zf 0) (zf 0) (zf 0) (zf 1) (zf 1).
Definition cable_f : Cable (B64 strict) :=
  mkCable (N := B64 strict) (zf 1) (zf 1) part_f part_f (zf 1) (zf 1)
    [mkResistancePoint (N := B64 strict) (zf 1) (zf 0); mkResistancePoint (N := B64 strict) (zf 2) (zf 100)] (zf 1) (zf 20) (zf 1).
Definition air_f : ThermalRatingWeather (B64 strict) :=
  mkThermalRatingWeather (N := B64 strict) (zf 90) (zf 0) (zf 0) (zf 2) (zf 25).

Lemma cold_valid : omap fst (sc_Validate (sc_fresh (Some (mkThermalRatingCable (Some cable_f))) (zf 15) Metric (Some air_f))) = Ok true.
Proof. vm_cast_no_check (eq_refl (Ok true : outcome bool)). Qed.
