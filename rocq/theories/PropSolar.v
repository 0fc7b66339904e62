(** Theorems about SolarRadiationSolver. *)
From Coq Require Import ZArith Bool List Reals Lra Lia.
From Verif Require Import Num ModelBase ModelSolar SpecVector SpecSolar ProofSolar ProofSolarRad ProofSolarCases.
Import ListNotations.
Open Scope R_scope.

(** C74: after any history that leaves documented inputs the reported altitude is the angle
    of the sun above the horizon, up to the 15 digits of pi. *)
Theorem sun_altitude : forall ks (i := inputs_after (N := RNum) ks), in_range i ->
  exists phi dec omega alt, sun_angles (in_latitude i) (in_day i) (in_hour i) phi dec omega /\
    about_degrees (fst (sr_AltitudeSun (sr_run (N := RNum) SolarSolver_default ks))) alt /\
    - (PI / 2) <= alt <= PI / 2 /\ sin alt = sun_up phi dec omega.
Proof. exact altitude_api. Qed.
Print Assumptions sun_altitude.

Example sun_altitude_case : in_range (inputs_after oslo) /\ in_latitude (inputs_after oslo) = (60 : R).
Proof. split; [exact oslo_range|reflexivity]. Qed.

(** C75, partial: the azimuth lies in [0, 360), and altitude and azimuth together are the
    direction of the sun unless it is due east or west (the quotient of the code has no
    value in real arithmetic there), or it is noon and the sun is not in the south. *)
Theorem sun_azimuth_partial : forall ks (i := inputs_after (N := RNum) ks), in_range i ->
  0 <= fst (sr_AzimuthSun (sr_run (N := RNum) SolarSolver_default ks)) < 360 /\
  ((forall phi dec omega, sun_angles (in_latitude i) (in_day i) (in_hour i) phi dec omega -> sun_north phi dec omega <> 0) ->
   (in_hour i = 12%Z -> forall phi dec omega, sun_angles (in_latitude i) (in_day i) (in_hour i) phi dec omega ->
      sun_north phi dec omega < 0) ->
   exists phi dec omega alt azi, sun_angles (in_latitude i) (in_day i) (in_hour i) phi dec omega /\
    about_degrees (fst (sr_AltitudeSun (sr_run (N := RNum) SolarSolver_default ks))) alt /\
    about_degrees (fst (sr_AzimuthSun (sr_run (N := RNum) SolarSolver_default ks))) azi /\
    cos alt * sin azi = sun_east phi dec omega /\ cos alt * cos azi = sun_north phi dec omega /\ sin alt = sun_up phi dec omega).
Proof. exact azimuth_api. Qed.
Print Assumptions sun_azimuth_partial.

Example sun_azimuth_case : in_range (inputs_after oslo) /\
  (forall phi dec omega, sun_angles 60 172 12 phi dec omega -> sun_north phi dec omega < 0).
Proof. split; [exact oslo_range|apply oslo_north]. Qed.

(** C75: at noon in the southern winter the sun is in the north, and the azimuth points south. *)
Theorem sun_azimuth_refuted : exists ks, fst (sr_Validate (sr_run (N := RNum) SolarSolver_default ks)) = true /\
  let i := inputs_after (N := RNum) ks in
  forall phi dec omega azi, sun_angles (in_latitude i) (in_day i) (in_hour i) phi dec omega ->
    about_degrees (fst (sr_AzimuthSun (sr_run (N := RNum) SolarSolver_default ks))) azi ->
    cos azi < 0 < sun_north phi dec omega.
Proof. exact (ex_intro _ southern southern_wrong). Qed.
Print Assumptions sun_azimuth_refuted.

(** C76, partial: with the sun at least one degree high, and up to 12 km of elevation, the
    radiation is not negative. *)
Theorem radiation_not_negative_partial : forall ks (i := inputs_after (N := RNum) ks), in_range i ->
  si_elevation (in_units i) (in_elevation i) <= 12000 ->
  1 <= fst (sr_AltitudeSun (sr_run (N := RNum) SolarSolver_default ks)) ->
  0 <= fst (sr_Radiation (sr_run (N := RNum) SolarSolver_default ks)).
Proof. exact (fun ks r e => proj1 (radiation_day ks r e)). Qed.
Print Assumptions radiation_not_negative_partial.

Example radiation_not_negative_case : in_range (inputs_after (equator Imperial AqIndustrial 100 12 3000)) /\
  1 <= fst (sr_AltitudeSun (sr_run (N := RNum) SolarSolver_default (equator Imperial AqIndustrial 100 12 3000))).
Proof.
  split; [apply equator_range; try discriminate; try lia; lra|]. apply equator_noon_altitude; discriminate.
Qed.

(** C76: every clear night has a negative radiation, although Validate accepts it. *)
Theorem radiation_negative_at_night : forall ks (i := inputs_after (N := RNum) ks), in_range i ->
  si_elevation (in_units i) (in_elevation i) <= 12000 -> in_quality i = AqClear ->
  fst (sr_AltitudeSun (sr_run (N := RNum) SolarSolver_default ks)) < 0 ->
  fst (sr_Validate (sr_run (N := RNum) SolarSolver_default ks)) = true /\
  fst (sr_Radiation (sr_run (N := RNum) SolarSolver_default ks)) < 0.
Proof. exact radiation_night. Qed.
Print Assumptions radiation_negative_at_night.

Theorem radiation_not_negative_refuted : exists ks,
  fst (sr_Validate (sr_run (N := RNum) SolarSolver_default ks)) = true /\
  fst (sr_Radiation (sr_run (N := RNum) SolarSolver_default ks)) < 0.
Proof. exact midnight_negative. Qed.
Print Assumptions radiation_not_negative_refuted.

(** C77, partial: with the sun above the horizon the radiation is below the solar constant. *)
Theorem radiation_below_solar_constant_partial : forall ks (i := inputs_after (N := RNum) ks), in_range i ->
  si_elevation (in_units i) (in_elevation i) <= 12000 ->
  0 <= fst (sr_AltitudeSun (sr_run (N := RNum) SolarSolver_default ks)) ->
  si_radiation (in_units i) (fst (sr_Radiation (sr_run (N := RNum) SolarSolver_default ks))) <= 1367.
Proof. exact (fun ks r e => proj2 (radiation_day ks r e)). Qed.
Print Assumptions radiation_below_solar_constant_partial.

Example radiation_below_solar_constant_case : in_range (inputs_after (equator Metric AqClear 100 12 5000)) /\
  1 <= fst (sr_AltitudeSun (sr_run (N := RNum) SolarSolver_default (equator Metric AqClear 100 12 5000))).
Proof.
  split; [apply equator_range; try discriminate; try lia; lra|]. apply equator_noon_altitude; discriminate.
Qed.

(** C77: at midnight on the equator, with industrial air, the radiation is above it. *)
Theorem radiation_below_solar_constant_refuted : exists ks,
  fst (sr_Validate (sr_run (N := RNum) SolarSolver_default ks)) = true /\
  in_units (inputs_after (N := RNum) ks) = Metric /\ in_elevation (inputs_after (N := RNum) ks) = (0 : R) /\
  fst (sr_AltitudeSun (sr_run (N := RNum) SolarSolver_default ks)) <= -45 /\
  1367 < fst (sr_Radiation (sr_run (N := RNum) SolarSolver_default ks)).
Proof. exact midnight_excess. Qed.
Print Assumptions radiation_below_solar_constant_refuted.

(** C78: after any history the answers are those of a new solver with the values last set,
    in every arithmetic; and Validate accepts exactly the documented ranges. *)
Theorem solar_answers_history : forall (N : Num) (ks : list (SolarCall N)),
  let s := sr_run SolarSolver_default ks in let f := sr_run SolarSolver_default (setting (inputs_after ks)) in
  fst (sr_AltitudeSun s) = fst (sr_AltitudeSun f) /\ fst (sr_AzimuthSun s) = fst (sr_AzimuthSun f) /\
  fst (sr_Radiation s) = fst (sr_Radiation f) /\ fst (sr_Validate s) = fst (sr_Validate f).
Proof. exact @solar_history. Qed.
Print Assumptions solar_answers_history.

Theorem solar_validate_exact : forall ks, fst (sr_Validate (sr_run (N := RNum) SolarSolver_default ks)) = true <->
  in_range (inputs_after ks).
Proof. exact validate_exact. Qed.
Print Assumptions solar_validate_exact.

Example solar_history_case : in_day (inputs_after (N := RNum) (oslo ++ [SrRadiation; SrSetDay 10; SrRadiation; SrSetHour 3])) = 10%Z /\
  fst (sr_Validate (sr_run (N := RNum) SolarSolver_default (oslo ++ [SrRadiation; SrSetDay 366]))) <> true.
Proof.
  split; [reflexivity|]. rewrite validate_exact. intros (_ & D & _). revert D. cbn. lia.
Qed.

(** C79: the two unit systems report the same sun, and by day and up to 4 km radiations
    within 6 W/m2 of each other. *)
Theorem solar_units_agree : forall ks ks' (i := inputs_after (N := RNum) ks) (j := inputs_after (N := RNum) ks'), in_range i -> in_range j ->
  in_units i = Metric -> in_units j = Imperial -> in_elevation j * (3048 / 10000) = in_elevation i -> in_elevation i <= 4000 ->
  in_azimuth i = in_azimuth j -> in_day i = in_day j -> in_hour i = in_hour j -> in_latitude i = in_latitude j ->
  in_quality i = in_quality j ->
  let s := sr_run (N := RNum) SolarSolver_default ks in let t := sr_run (N := RNum) SolarSolver_default ks' in
  fst (sr_AltitudeSun s) = fst (sr_AltitudeSun t) /\ fst (sr_AzimuthSun s) = fst (sr_AzimuthSun t) /\
  (0 <= fst (sr_AltitudeSun s) -> Rabs (fst (sr_Radiation s) - si_radiation Imperial (fst (sr_Radiation t))) <= 6).
Proof. exact units_api. Qed.
Print Assumptions solar_units_agree.

Example solar_units_agree_case : in_range (inputs_after (equator Metric AqClear 100 12 3048)) /\
  in_range (inputs_after (equator Imperial AqClear 100 12 10000)) /\ 10000 * (3048 / 10000) = 3048 /\
  1 <= fst (sr_AltitudeSun (sr_run (N := RNum) SolarSolver_default (equator Metric AqClear 100 12 3048))).
Proof.
  split; [apply equator_range; try discriminate; try lia; lra|].
  split; [apply equator_range; try discriminate; try lia; lra|].
  split; [lra|]. apply equator_noon_altitude; discriminate.
Qed.
