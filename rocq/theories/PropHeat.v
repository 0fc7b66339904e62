(** Theorems about the heat terms of the thermal rating classes. *)
From Coq Require Import ZArith Bool List Reals Lra.
From Flocq Require Import IEEE754.BinarySingleNaN.
From Verif Require Import Num ModelBase ModelCable ModelThermal SpecThermal SpecHeat
  ProofThermal ProofThermalCases ProofHeatUnits ProofHeatMono ProofHeatCold ProofHeatCases.
Import ListNotations.
Open Scope R_scope.

(** C160: the same cable in the same weather loses the same heat per length in both unit
    systems: convection within 0.3 %, radiation within 0.2 %, solar heat exactly. *)
Theorem heat_unit_systems : forall (hi hm : HeatSolver RNum) (bi bm : Cable RNum) (wi wm : ThermalRatingWeather RNum) (t : R),
  hs_Validate hi = true -> hs_Validate hm = true -> hs_units hi = Imperial -> hs_units hm = Metric ->
  hs_cable hi = Some (mkThermalRatingCable (Some bi)) -> hs_cable hm = Some (mkThermalRatingCable (Some bm)) ->
  hs_weather hi = Some wi -> hs_weather hm = Some wm -> same_surface bi bm -> same_weather wi wm ->
  tw_temperature_air wi <= t <= 1000 ->
  exists ci cm ri rm si sm : R,
    hs_HeatConvection hi t = Ok ci /\ hs_HeatConvection hm t = Ok cm /\ agree (3 / 1000) ci (foot * cm) /\
    hs_HeatRadiation hi t = Ok ri /\ hs_HeatRadiation hm t = Ok rm /\ agree (2 / 1000) ri (foot * rm) /\
    hs_HeatSolar hi = Ok si /\ hs_HeatSolar hm = Ok sm /\ si = foot * sm.
Proof. exact heat_units. Qed.
Print Assumptions heat_unit_systems.

Example heat_unit_systems_case :
  hs_Validate (mkHeatSolver (wire base3) Imperial (Some (breeze 45 10))) = true /\
  hs_Validate (mkHeatSolver (wire base3_m) Metric (Some (breeze_m 45 10))) = true /\
  same_surface base3 base3_m /\ same_weather (breeze 45 10) (breeze_m 45 10).
Proof.
  split; [|split; [|split; [exact same_base3|apply same_breeze]]]; apply hs_valid; try discriminate.
  - exact base3_valid.
  - apply breeze_valid; lra.
  - exact base3_m_valid.
  - apply breeze_m_valid; lra.
Qed.

(** C161: the radiated heat is that of a grey cylinder within 0.5 %. *)
Theorem radiation_grey_body : forall (h : HeatSolver RNum) (b : Cable RNum) (w : ThermalRatingWeather RNum) (t : R), hs_Validate h = true ->
  hs_cable h = Some (mkThermalRatingCable (Some b)) -> hs_weather h = Some w -> tw_temperature_air w <= t ->
  exists r : R, hs_HeatRadiation h t = Ok r /\
    (hs_units h = Metric -> agree (5 / 1000) (- r) (grey_body (cb_diameter b) (cb_emissivity b) t (tw_temperature_air w))) /\
    (hs_units h = Imperial -> agree (5 / 1000) (- r) (foot * grey_body (foot * cb_diameter b) (cb_emissivity b) t (tw_temperature_air w))).
Proof. exact grey_radiation. Qed.
Print Assumptions radiation_grey_body.

Example radiation_grey_body_case : hs_Validate (mkHeatSolver (wire base3) Imperial (Some (breeze 45 10))) = true /\
  0 < grey_body (foot * cb_diameter base3) (cb_emissivity base3) 75 (tw_temperature_air (breeze 45 10)).
Proof.
  split; [apply hs_valid; [exact base3_valid|apply breeze_valid; lra|discriminate]|].
  unfold grey_body, kelvin, stefan, foot. cbn -[pow]. assert (P := PI_RGT_0).
  assert (0 < PI * (3048 / 10000 * 1) * (1 / 2) * (5670374419 / 100000000000000000)) by lra.
  apply Rmult_lt_0_compat; [assumption|lra].
Qed.

(** C162: a hotter cable loses more heat by convection. *)
Theorem convection_grows_with_temperature : forall (h : HeatSolver RNum) (b : Cable RNum) (w : ThermalRatingWeather RNum) (t t' : R), hs_Validate h = true ->
  hs_cable h = Some (mkThermalRatingCable (Some b)) -> hs_weather h = Some w -> tw_temperature_air w <= t -> t < t' -> t' <= 1000 ->
  exists c c' : R, hs_HeatConvection h t = Ok c /\ hs_HeatConvection h t' = Ok c' /\ c' < c.
Proof. exact hotter_cools. Qed.
Print Assumptions convection_grows_with_temperature.

Example convection_grows_with_temperature_case :
  hs_Validate (mkHeatSolver (wire base3) Imperial (Some (breeze 45 10))) = true /\ tw_temperature_air (breeze 45 10) <= 50.
Proof. split; [apply hs_valid; [exact base3_valid|apply breeze_valid; lra|discriminate]|cbn; lra]. Qed.

(** C163: a wind that is faster or more perpendicular takes more heat, unless the heat is
    the one taken by still air. *)
Theorem convection_grows_with_wind : forall (h : HeatSolver RNum) (b : Cable RNum) (w w' : ThermalRatingWeather RNum) (t : R), hs_Validate h = true ->
  hs_cable h = Some (mkThermalRatingCable (Some b)) -> hs_weather h = Some w -> tw_Validate w' = true -> windier w w' -> tw_temperature_air w < t <= 1000 ->
  let conv v := hs_HeatConvection (mkHeatSolver (hs_cable h) (hs_units h) (Some v)) t in
  exists c c' c0 : R, conv w = Ok c /\ conv w' = Ok c' /\ conv (still w) = Ok c0 /\ c' <= c /\
    ((tw_angle_wind w : R) < tw_angle_wind w' \/ (tw_speed_wind w : R) < tw_speed_wind w' -> c' < c \/ c' = c0).
Proof. exact wind_cools. Qed.
Print Assumptions convection_grows_with_wind.

Example convection_grows_with_wind_case :
  hs_Validate (mkHeatSolver (wire base3) Imperial (Some (breeze 45 10))) = true /\ tw_Validate (breeze 60 12) = true /\
  windier (breeze 45 10) (breeze 60 12).
Proof.
  split; [apply hs_valid; [exact base3_valid|apply breeze_valid; lra|discriminate]|]. split; [apply breeze_valid; lra|].
  constructor; cbn; lra.
Qed.

(** C164, refuted in binary64: whenever the cable is colder than the air, a steady current
    solver that validates reports NaN, because the solver raises a negative difference to
    the power 1.25. *)
Theorem steady_current_number_refuted : forall lm, c_pow lm -> forall c (t : B64 lm) u (w : ThermalRatingWeather (B64 lm)), let s := sc_fresh c t u (Some w) in
  omap fst (sc_Validate s) = Ok true -> is_finite (t : b64) = true -> is_finite (tw_temperature_air w : b64) = true ->
  fltb (n := B64 lm) t (tw_temperature_air w) = true ->
  exists i st, omap fst (sc_Current s) = Ok i /\ is_nan (i : b64) = true /\
    omap fst (sc_StateHeatTransfer s) = Ok st /\ is_nan (ht_convection st : b64) = true.
Proof. exact cold_current. Qed.
Print Assumptions steady_current_number_refuted.

Example steady_current_number_refuted_case : c_pow strict /\
  omap fst (sc_Validate (sc_fresh (Some (mkThermalRatingCable (Some cable_f))) (zf 15) Metric (Some air_f))) = Ok true /\
  is_finite (zf 15 : b64) = true /\ is_finite (tw_temperature_air air_f : b64) = true /\ fltb (n := B64 strict) (zf 15) (tw_temperature_air air_f) = true.
Proof. split; [exact strict_c|]. split; [exact cold_valid|]. repeat split; vm_compute; reflexivity. Qed.
