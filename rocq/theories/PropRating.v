(** C168: harsher weather and duller surfaces lower the rating. *)
From Coq Require Import ZArith Bool List Reals Lra.
From Verif Require Import Num NumFacts ModelBase ModelCable ModelThermal SpecThermal SpecRating
  ProofReal ProofThermalReal ProofThermal ProofThermalCases ProofHeatCases ProofRating.
Import ListNotations.
Open Scope R_scope.

(** The steady current at a cable temperature does not grow if the air gets hotter, the sun
    stronger, or the wind weaker or less perpendicular; with hotter air, or with more sun
    on a cable that takes it in, it falls. *)
Theorem rating_falls_with_weather : forall (b : Cable RNum) u (w w' : ThermalRatingWeather RNum) (t r : R), let c := mkThermalRatingCable (Some b) in
  trc_Validate c = true -> u <> USNull -> tw_Validate w = true -> tw_Validate w' = true ->
  harsher w w' -> tw_temperature_air w' <= t <= 1000 -> trc_Resistance c t = Ok r -> 0 < r ->
  let current v := omap fst (sc_Current (sc_fresh (N := RNum) (Some c) t u (Some v))) in
  exists i i' : R, current w = Ok i /\ current w' = Ok i' /\ i' <= i /\
    ((tw_temperature_air w : R) < tw_temperature_air w' \/ ((tw_radiation_solar w : R) < tw_radiation_solar w' /\ 0 < cb_absorptivity b) -> i' < i).
Proof. exact rating_weather. Qed.
Print Assumptions rating_falls_with_weather.

Example rating_falls_with_weather_case :
  let hot := mkThermalRatingWeather (N := RNum) (30 : R) (1000 : R) (95 : R) (2 : R) (40 : R) in
  trc_Validate (mkThermalRatingCable (Some base2)) = true /\ tw_Validate (breeze 45 10) = true /\ tw_Validate hot = true /\
  harsher (breeze 45 10) hot /\ tw_temperature_air hot <= 75 /\ trc_Resistance (mkThermalRatingCable (Some base2)) (75 : F RNum) = Ok (1 : F RNum) /\
  (tw_temperature_air (breeze 45 10) : R) < tw_temperature_air hot.
Proof.
  split; [exact base2_valid|]. split; [apply breeze_valid; lra|]. split; [unfold tw_Validate; cbn; rn; rdec; reflexivity|].
  split; [constructor; cbn; lra|]. split; [cbn; lra|]. split; [|cbn; lra].
  unfold trc_Resistance. cbn [deref obind trc_base]. f_equal. apply base2_resistance.
Qed.

(** The steady current does not grow if the surface takes in more sun or radiates less. *)
Theorem rating_falls_with_surface : forall (b b' : Cable RNum) u (w : ThermalRatingWeather RNum) (t r : R),
  trc_Validate (mkThermalRatingCable (Some b)) = true -> trc_Validate (mkThermalRatingCable (Some b')) = true -> u <> USNull -> tw_Validate w = true ->
  duller b b' -> tw_temperature_air w <= t -> trc_Resistance (mkThermalRatingCable (Some b)) t = Ok r -> 0 < r ->
  let current c := omap fst (sc_Current (sc_fresh (N := RNum) (Some (mkThermalRatingCable (Some c))) t u (Some w))) in
  exists i i' : R, current b = Ok i /\ current b' = Ok i' /\ i' <= i /\
    (((cb_absorptivity b : R) < cb_absorptivity b' /\ 0 < tw_radiation_solar w) \/ ((cb_emissivity b' : R) < cb_emissivity b /\ tw_temperature_air w < t) -> i' < i).
Proof. exact rating_surface. Qed.
Print Assumptions rating_falls_with_surface.

(** The same cable after weathering: more absorptive, less emissive. *)
Example rating_falls_with_surface_case :
  let shiny := mkCable (N := RNum) (1 / 2 : R) (cb_area base2) (cb_core base2) (cb_shell base2) (cb_diameter base2) (1 : R) (cb_resistances base2)
    (cb_strength base2) (cb_temperature base2) (cb_weight base2) in
  trc_Validate (mkThermalRatingCable (Some shiny)) = true /\ trc_Validate (mkThermalRatingCable (Some base2)) = true /\
  duller shiny base2 /\ (cb_emissivity base2 : R) < cb_emissivity shiny /\ (cb_absorptivity shiny : R) < cb_absorptivity base2.
Proof.
  split; [unfold trc_Validate, Cable_Validate, component_valid, CableComponent_Validate, base2, cable_of, part, rpt; cbn; rn; rdec; reflexivity|].
  split; [exact base2_valid|]. split; [constructor; cbn; try reflexivity; lra|]. cbn. lra.
Qed.
