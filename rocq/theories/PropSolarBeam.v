(** Theorems about the radiation of SolarRadiationSolver: the beam and its incidence. *)
From Coq Require Import ZArith Bool List Reals Lra Lia.
From Verif Require Import Num ModelBase ModelSolar SpecVector SpecSolar ProofSolar ProofSolarRad ProofSolarCases ProofSolarBeam.
Import ListNotations.
Open Scope R_scope.

(** C188: one beam, a function of the units, the atmosphere, the reported altitude and the
    elevation alone, gives the radiation of every documented input: it is weighted by the sine
    of the angle between the sun and the level direction of the cable. The beam grows with the
    altitude of the sun and, up to 5 km, with the elevation. *)
Theorem radiation_is_beam : exists beam : UnitSystem -> AtmosphereQualityType -> R -> R -> R,
  (forall ks (i := inputs_after (N := RNum) ks), in_range i ->
    exists alt azi cab theta,
      about_degrees (fst (sr_AltitudeSun (sr_run (N := RNum) SolarSolver_default ks))) alt /\
      about_degrees (fst (sr_AzimuthSun (sr_run (N := RNum) SolarSolver_default ks))) azi /\
      about_degrees (in_azimuth i) cab /\ 0 <= theta <= PI /\ cos theta = cos alt * cos (azi - cab) /\
      (fst (sr_Radiation (sr_run (N := RNum) SolarSolver_default ks)) : R) =
        beam (in_units i) (in_quality i) (fst (sr_AltitudeSun (sr_run (N := RNum) SolarSolver_default ks))) (in_elevation i) * sin theta) /\
  (forall u q e h h', u <> USNull -> q <> AqNull -> 0 <= si_elevation u e <= 12000 -> 0 <= h -> h < h' -> h' <= 91 ->
    beam u q h e < beam u q h' e) /\
  (forall u q h e e', u <> USNull -> q <> AqNull -> 1 <= h <= 91 -> 0 <= si_elevation u e ->
    si_elevation u e < si_elevation u e' -> si_elevation u e' <= 5000 -> beam u q h e < beam u q h e').
Proof. exact beam_exists. Qed.
Print Assumptions radiation_is_beam.

Example radiation_is_beam_case : in_range (inputs_after oslo) /\ in_range (inputs_after (equator Imperial AqIndustrial 200 9 2000)) /\
  0 <= si_elevation Imperial 2000 /\ si_elevation Imperial 2000 < si_elevation Imperial 16000 /\ si_elevation Imperial 16000 <= 5000.
Proof.
  split; [exact oslo_range|]. split; [apply equator_range; try discriminate; try lia; lra|]. cbn [si_elevation]. lra.
Qed.

(** C189, partial: with the sun at least three degrees high a clear sky gives more radiation
    than an industrial one. *)
Theorem clear_sky_brighter_partial : forall ks ks' (i := inputs_after (N := RNum) ks) (j := inputs_after (N := RNum) ks'),
  in_range i -> in_range j ->
  in_azimuth i = in_azimuth j -> in_day i = in_day j -> in_elevation i = in_elevation j -> in_hour i = in_hour j ->
  in_latitude i = in_latitude j -> in_units i = in_units j -> in_quality i = AqClear -> in_quality j = AqIndustrial ->
  si_elevation (in_units i) (in_elevation i) <= 12000 ->
  3 <= fst (sr_AltitudeSun (sr_run (N := RNum) SolarSolver_default ks)) ->
  fst (sr_Radiation (sr_run (N := RNum) SolarSolver_default ks')) < fst (sr_Radiation (sr_run (N := RNum) SolarSolver_default ks)).
Proof. exact quality_api. Qed.
Print Assumptions clear_sky_brighter_partial.

Example clear_sky_brighter_case : in_range (inputs_after (equator Metric AqClear 100 12 300)) /\
  in_range (inputs_after (equator Metric AqIndustrial 100 12 300)) /\
  3 <= fst (sr_AltitudeSun (sr_run (N := RNum) SolarSolver_default (equator Metric AqClear 100 12 300))).
Proof.
  split; [apply equator_range; try discriminate; try lia; lra|]. split; [apply equator_range; try discriminate; try lia; lra|].
  apply equator_noon_three; discriminate.
Qed.

(** C189 is false below: at six o'clock on the equator the sun is up, the clear sky gives a
    negative radiation and the industrial one a positive radiation. *)
Theorem clear_sky_brighter_refuted : exists ks ks', let i := inputs_after (N := RNum) ks in let j := inputs_after (N := RNum) ks' in
  in_range i /\ in_range j /\
  in_azimuth i = in_azimuth j /\ in_day i = in_day j /\ in_elevation i = in_elevation j /\ in_hour i = in_hour j /\
  in_latitude i = in_latitude j /\ in_units i = in_units j /\ in_quality i = AqClear /\ in_quality j = AqIndustrial /\
  0 < fst (sr_AltitudeSun (sr_run (N := RNum) SolarSolver_default ks)) /\
  fst (sr_Radiation (sr_run (N := RNum) SolarSolver_default ks)) < 0 < fst (sr_Radiation (sr_run (N := RNum) SolarSolver_default ks')).
Proof. exact sunrise_dark. Qed.
Print Assumptions clear_sky_brighter_refuted.
