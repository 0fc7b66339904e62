(** Specification of the sun position and radiation, independent of
    solar_radiation_solver.cc. *)
From Coq Require Import ZArith Bool List Reals.
From Verif Require Import Num ModelBase ModelSolar SpecVector.
Import ListNotations.
Open Scope R_scope.

(** ** Inputs *)

Record SolarInputs (N : Num) : Type := mkSolarInputs {
  in_azimuth : N; in_day : Z; in_elevation : N; in_hour : Z; in_latitude : N;
  in_quality : AtmosphereQualityType; in_units : UnitSystem
}.
Arguments mkSolarInputs {N}. Arguments in_azimuth {N}. Arguments in_day {N}. Arguments in_elevation {N}.
Arguments in_hour {N}. Arguments in_latitude {N}. Arguments in_quality {N}. Arguments in_units {N}.

(** The values last set by a history. *)
Definition set_input {N : Num} (i : SolarInputs N) (k : SolarCall N) : SolarInputs N :=
  let '(mkSolarInputs a d e h l q u) := i in
  match k with
  | SrSetAzimuth a => mkSolarInputs a d e h l q u
  | SrSetDay d => mkSolarInputs a d e h l q u
  | SrSetElevation e => mkSolarInputs a d e h l q u
  | SrSetHour h => mkSolarInputs a d e h l q u
  | SrSetLatitude l => mkSolarInputs a d e h l q u
  | SrSetQuality q => mkSolarInputs a d e h l q u
  | SrSetUnits u => mkSolarInputs a d e h l q u
  | _ => i
  end.
Definition inputs_after {N : Num} (ks : list (SolarCall N)) : SolarInputs N :=
  fold_left set_input ks (mkSolarInputs ferr (-9999)%Z ferr (-9999)%Z ferr AqNull USNull).

(** A history that only sets these inputs, in the order of the interface. *)
Definition setting {N : Num} (i : SolarInputs N) : list (SolarCall N) :=
  [SrSetAzimuth (in_azimuth i); SrSetDay (in_day i); SrSetElevation (in_elevation i); SrSetHour (in_hour i);
   SrSetLatitude (in_latitude i); SrSetQuality (in_quality i); SrSetUnits (in_units i)].

(** The documented input ranges. *)
Definition in_range (i : SolarInputs RNum) : Prop :=
  0 <= in_azimuth i <= 360 /\ (1 <= in_day i <= 365)%Z /\ 0 <= in_elevation i /\ (0 <= in_hour i <= 23)%Z /\
  -90 <= in_latitude i <= 90 /\ in_quality i <> AqNull /\ in_units i <> USNull.

(** ** The sun *)

(** Latitude, declination and hour angle in radians: the earth turns 15 degrees in an
    hour, and the axis is tilted by 23.46 degrees. *)
Definition sun_angles (latitude : R) (day hour : Z) (phi dec omega : R) : Prop :=
  about_degrees latitude phi /\
  (exists theta, about_degrees (360 * IZR (284 + day) / 365) theta /\ about_degrees (2346 / 100 * sin theta) dec) /\
  about_degrees (15 * IZR (hour - 12)) omega.

(** The unit vector towards the sun: east, north and up. *)
Definition sun_east (phi dec omega : R) : R := - (cos dec * sin omega).
Definition sun_north (phi dec omega : R) : R := sin dec * cos phi - cos dec * sin phi * cos omega.
Definition sun_up (phi dec omega : R) : R := sin dec * sin phi + cos dec * cos phi * cos omega.

(** ** Radiation *)

(** A solar radiation in watts per square meter. *)
Definition si_radiation (u : UnitSystem) (q : R) : R :=
  match u with Imperial => q * (1 / (3048 / 10000) * (1 / (3048 / 10000))) | _ => q end.
(** An elevation in meters. *)
Definition si_elevation (u : UnitSystem) (e : R) : R :=
  match u with Imperial => e * (3048 / 10000) | _ => e end.
