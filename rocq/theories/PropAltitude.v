(** C173: thinner air lowers the rating, up to the sky. *)
From Coq Require Import ZArith Bool List Reals Lra.
From Verif Require Import Num NumFacts ModelBase ModelCable ModelThermal SpecThermal SpecAltitude
  ProofReal ProofThermalReal ProofThermal ProofThermalCases ProofHeatCases ProofAltitude ProofAltitudeHigh.
Import ListNotations.
Open Scope R_scope.

(** At a higher elevation, below the sky, the steady current at a cable temperature is no
    higher; with wind and above the temperature of the air it is lower. Missing: elevations
    above the sky, where the claim is false although Validate accepts them. *)
Theorem rating_falls_with_elevation_partial : forall (b : Cable RNum) u (w w' : ThermalRatingWeather RNum) (t r : R), let c := mkThermalRatingCable (Some b) in
  trc_Validate c = true -> u <> USNull -> tw_Validate w = true -> tw_Validate w' = true ->
  elsewhere w w' -> tw_elevation w <= tw_elevation w' <= sky u -> tw_temperature_air w <= t <= 1000 -> trc_Resistance c t = Ok r -> 0 < r ->
  let current v := omap fst (sc_Current (sc_fresh (N := RNum) (Some c) t u (Some v))) in
  exists i i' : R, current w = Ok i /\ current w' = Ok i' /\ i' <= i /\
    (tw_elevation w < tw_elevation w' -> tw_temperature_air w < t -> 0 < tw_speed_wind w -> i' < i).
Proof. exact rating_altitude. Qed.
Print Assumptions rating_falls_with_elevation_partial.

Example rating_falls_with_elevation_case :
  trc_Validate (mkThermalRatingCable (Some base2)) = true /\ tw_Validate (aloft 0) = true /\ tw_Validate (aloft 10000) = true /\
  elsewhere (aloft 0) (aloft 10000) /\ tw_elevation (aloft 10000) <= sky Imperial /\ tw_elevation (aloft 10000) <= sky Metric /\
  tw_temperature_air (aloft 0) < 75 /\ 0 < tw_speed_wind (aloft 0) /\
  trc_Resistance (mkThermalRatingCable (Some base2)) (75 : F RNum) = Ok (1 : F RNum).
Proof. exact aloft_case. Qed.

(** Above the sky a higher elevation raises the current, in both unit systems. *)
Theorem rating_falls_with_elevation_refuted : forall u, u <> USNull -> exists (b : Cable RNum) (w w' : ThermalRatingWeather RNum) (t r i i' : R),
  let c := mkThermalRatingCable (Some b) in
  let current v := omap fst (sc_Current (sc_fresh (N := RNum) (Some c) t u (Some v))) in
  trc_Validate c = true /\ tw_Validate w = true /\ tw_Validate w' = true /\ elsewhere w w' /\ tw_elevation w < tw_elevation w' /\
  tw_temperature_air w <= t <= 1000 /\ trc_Resistance c t = Ok r /\ 0 < r /\ current w = Ok i /\ current w' = Ok i' /\ i < i'.
Proof. exact aloft_refuted. Qed.
Print Assumptions rating_falls_with_elevation_refuted.
