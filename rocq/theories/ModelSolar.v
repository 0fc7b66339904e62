(** Model of /repo/src/thermalrating/solar_radiation_solver.cc (SolarRadiationSolver).
    The lists of error messages are not modelled.  day and hour are int; they are
    unbounded integers here (overflow of AngleHour is not considered). *)
From Coq Require Import ZArith Bool List.
From Verif Require Import Num ModelBase ModelPolynomial.
Import ListNotations.
Open Scope num_scope.

(** solar_radiation_solver.h 15-19 *)
Inductive AtmosphereQualityType : Type := AqNull | AqClear | AqIndustrial.

Section Solar.
Context {N : Num}.

(** solar_radiation_solver.h: the members *)
Record SolarSolver : Type := mkSolarSolver {
  sr_azimuth_cable : N;
  sr_day : Z;
  sr_elevation : N;
  sr_hour : Z;
  sr_latitude : N;
  sr_quality : AtmosphereQualityType;
  sr_units : UnitSystem;
  sr_altitude_sun : N;
  sr_azimuth_sun : N;
  sr_atmosphere : list N;
  sr_elevations : list N;
  sr_radiation : N;
  sr_is_updated : bool
}.

(** solar_radiation_solver.cc 10-26 *)
Definition SolarSolver_default : SolarSolver :=
  mkSolarSolver ferr (-9999) ferr (-9999) ferr AqNull USNull ferr ferr (repeat #0 7) (repeat #0 3) ferr false.

(** std::pow(10, exponent) of the coefficients; both arguments are int there *)
Definition ten (exponent : Z) : N := fpow #10 #exponent.

(** solar_radiation_solver.cc 381-439: the atmosphere and elevation coefficients; None for
    the result false, which leaves the members as they are *)
Definition UpdatePolynomialCoefficients (u : UnitSystem) (q : AtmosphereQualityType) : option (list N * list N) :=
  match u with
  | Imperial =>
      let e := [#1; flit 3500 (-3) * ten (-5); flit (-1000) (-3) * ten (-9)] in
      match q with
      | AqClear => Some ([flit (-39241) (-4); flit 59276 (-4); flit (-17856) (-4) * ten (-1); flit 3223 (-3) * ten (-3);
          flit (-33549) (-4) * ten (-5); flit 18053 (-4) * ten (-7); flit (-37868) (-4) * ten (-10)], e)
      | AqIndustrial => Some ([flit 49408 (-4); flit 13202 (-4); flit 61444 (-4) * ten (-2); flit (-29411) (-4) * ten (-3);
          flit 507752 (-5) * ten (-5); flit (-403627) (-5) * ten (-7); flit 122967 (-5) * ten (-9)], e)
      | AqNull => None
      end
  | Metric =>
      let e := [#1; flit 1148 (-3) * ten (-4); flit (-1108) (-3) * ten (-8)] in
      match q with
      | AqClear => Some ([flit (-422391) (-4); flit 638044 (-4); flit (-19220) (-4); flit 346921 (-5) * ten (-2);
          flit (-361118) (-5) * ten (-4); flit 194318 (-5) * ten (-6); flit (-407608) (-5) * ten (-9)], e)
      | AqIndustrial => Some ([flit 531821 (-4); flit 142110 (-4); flit 66138 (-4) * ten (-1); flit (-31658) (-4) * ten (-2);
          flit 54654 (-4) * ten (-4); flit (-43446) (-4) * ten (-6); flit 13236 (-4) * ten (-8)], e)
      | AqNull => None
      end
  | USNull => None
  end.

(** solar_radiation_solver.cc 209-211 *)
Definition AngleHour (hour : Z) : Z := ((hour - 12) * 15)%Z.

(** solar_radiation_solver.cc 238-247 *)
Definition Declination (day : Z) : N :=
  flit 2346 (-2) * fsin (deg2rad (#(284 + day) / #365 * #360)).

(** solar_radiation_solver.cc 258-283 *)
Definition SolveAltitudeSolar (latitude declination angle_hour : N) : N :=
  let w := deg2rad angle_hour in
  let d := deg2rad declination in
  let p := deg2rad latitude in
  rad2deg (fasin (fcos p * fcos d * fcos w + fsin p * fsin d)).

(** solar_radiation_solver.cc 285-331; None for the result false *)
Definition SolveAzimuthSolar (latitude declination angle_hour : N) : option N :=
  let w := deg2rad angle_hour in
  let d := deg2rad declination in
  let p := deg2rad latitude in
  let chi := fsin w / (fsin p * fcos w - fcos p * ftan d) in
  let term4 := rad2deg (fatan chi) in
  if angle_hour <? #0 then Some ((if chi <? #0 then #180 else #0) + term4)
  else if #0 <=? angle_hour then Some ((if chi <? #0 then #360 else #180) + term4)
  else None.

(** solar_radiation_solver.cc 213-236 *)
Definition AngleIncidence (altitude_sun azimuth_sun azimuth_cable : N) : N :=
  let h := deg2rad altitude_sun in
  let z := deg2rad azimuth_sun in
  let a := deg2rad azimuth_cable in
  rad2deg (facos (fcos h * fcos (z - a))).

(** solar_radiation_solver.cc 333-353 *)
Definition SolveRadiation (atmosphere elevations : list N) (altitude_sun azimuth_sun azimuth_cable elevation : N) : N :=
  Y_list atmosphere altitude_sun
    * fsin (deg2rad (AngleIncidence altitude_sun azimuth_sun azimuth_cable))
    * Y_list elevations elevation.

(** solar_radiation_solver.cc 355-379 with 441-457.  The azimuth is solved first; when that
    fails (not a number), the coefficients are already new. *)
Definition sr_Update (s : SolarSolver) : bool * SolarSolver :=
  if sr_is_updated s then (true, s)
  else
    match UpdatePolynomialCoefficients (sr_units s) (sr_quality s) with
    | None => (false, s)
    | Some (atmosphere, elevations) =>
        let declination := Declination (sr_day s) in
        let angle_hour := #(AngleHour (sr_hour s)) in
        match SolveAzimuthSolar (sr_latitude s) declination angle_hour with
        | None => (false, mkSolarSolver (sr_azimuth_cable s) (sr_day s) (sr_elevation s) (sr_hour s) (sr_latitude s)
            (sr_quality s) (sr_units s) (sr_altitude_sun s) (sr_azimuth_sun s) atmosphere elevations (sr_radiation s) false)
        | Some azimuth =>
            let altitude := SolveAltitudeSolar (sr_latitude s) declination angle_hour in
            (true, mkSolarSolver (sr_azimuth_cable s) (sr_day s) (sr_elevation s) (sr_hour s) (sr_latitude s)
              (sr_quality s) (sr_units s) altitude azimuth atmosphere elevations
              (SolveRadiation atmosphere elevations altitude azimuth (sr_azimuth_cable s) (sr_elevation s)) true)
        end
    end.

(** solar_radiation_solver.cc 31-38 *)
Definition sr_AltitudeSun (s : SolarSolver) : N * SolarSolver :=
  let '(b, s) := sr_Update s in (if b then sr_altitude_sun s else ferr, s).

(** solar_radiation_solver.cc 40-47 *)
Definition sr_AzimuthSun (s : SolarSolver) : N * SolarSolver :=
  let '(b, s) := sr_Update s in (if b then sr_azimuth_sun s else ferr, s).

(** solar_radiation_solver.cc 49-56 *)
Definition sr_Radiation (s : SolarSolver) : N * SolarSolver :=
  let '(b, s) := sr_Update s in (if b then sr_radiation s else ferr, s).

(** solar_radiation_solver.cc 64-127: the checks before the update *)
Definition sr_inputs_valid (s : SolarSolver) : bool :=
  negb ((sr_azimuth_cable s <? #0) || (#360 <? sr_azimuth_cable s))
  && negb ((sr_day s <=? 0) || (365 <? sr_day s))%Z
  && negb (sr_elevation s <? #0)
  && negb ((sr_hour s <? 0) || (24 <=? sr_hour s))%Z
  && negb ((sr_latitude s <? #(-90)) || (#90 <? sr_latitude s))
  && (match sr_quality s with AqNull => false | _ => true end)
  && (match sr_units s with USNull => false | _ => true end).

(** solar_radiation_solver.cc 58-143 *)
Definition sr_Validate (s : SolarSolver) : bool * SolarSolver :=
  if sr_inputs_valid s then sr_Update s else (false, s).

(** solar_radiation_solver.cc 169-203: the setters *)
Definition sr_set_azimuth_cable (s : SolarSolver) (a : N) : SolarSolver :=
  mkSolarSolver a (sr_day s) (sr_elevation s) (sr_hour s) (sr_latitude s) (sr_quality s) (sr_units s)
    (sr_altitude_sun s) (sr_azimuth_sun s) (sr_atmosphere s) (sr_elevations s) (sr_radiation s) false.
Definition sr_set_day (s : SolarSolver) (d : Z) : SolarSolver :=
  mkSolarSolver (sr_azimuth_cable s) d (sr_elevation s) (sr_hour s) (sr_latitude s) (sr_quality s) (sr_units s)
    (sr_altitude_sun s) (sr_azimuth_sun s) (sr_atmosphere s) (sr_elevations s) (sr_radiation s) false.
Definition sr_set_elevation (s : SolarSolver) (e : N) : SolarSolver :=
  mkSolarSolver (sr_azimuth_cable s) (sr_day s) e (sr_hour s) (sr_latitude s) (sr_quality s) (sr_units s)
    (sr_altitude_sun s) (sr_azimuth_sun s) (sr_atmosphere s) (sr_elevations s) (sr_radiation s) false.
Definition sr_set_hour (s : SolarSolver) (h : Z) : SolarSolver :=
  mkSolarSolver (sr_azimuth_cable s) (sr_day s) (sr_elevation s) h (sr_latitude s) (sr_quality s) (sr_units s)
    (sr_altitude_sun s) (sr_azimuth_sun s) (sr_atmosphere s) (sr_elevations s) (sr_radiation s) false.
Definition sr_set_latitude (s : SolarSolver) (l : N) : SolarSolver :=
  mkSolarSolver (sr_azimuth_cable s) (sr_day s) (sr_elevation s) (sr_hour s) l (sr_quality s) (sr_units s)
    (sr_altitude_sun s) (sr_azimuth_sun s) (sr_atmosphere s) (sr_elevations s) (sr_radiation s) false.
Definition sr_set_quality (s : SolarSolver) (q : AtmosphereQualityType) : SolarSolver :=
  mkSolarSolver (sr_azimuth_cable s) (sr_day s) (sr_elevation s) (sr_hour s) (sr_latitude s) q (sr_units s)
    (sr_altitude_sun s) (sr_azimuth_sun s) (sr_atmosphere s) (sr_elevations s) (sr_radiation s) false.
Definition sr_set_units (s : SolarSolver) (u : UnitSystem) : SolarSolver :=
  mkSolarSolver (sr_azimuth_cable s) (sr_day s) (sr_elevation s) (sr_hour s) (sr_latitude s) (sr_quality s) u
    (sr_altitude_sun s) (sr_azimuth_sun s) (sr_atmosphere s) (sr_elevations s) (sr_radiation s) false.

(** A history of calls; the getters change nothing. *)
Inductive SolarCall : Type :=
| SrSetAzimuth (a : N) | SrSetDay (d : Z) | SrSetElevation (e : N) | SrSetHour (h : Z) | SrSetLatitude (l : N)
| SrSetQuality (q : AtmosphereQualityType) | SrSetUnits (u : UnitSystem)
| SrAltitude | SrAzimuth | SrRadiation | SrValidate.

Definition sr_call (s : SolarSolver) (k : SolarCall) : SolarSolver :=
  match k with
  | SrSetAzimuth a => sr_set_azimuth_cable s a
  | SrSetDay d => sr_set_day s d
  | SrSetElevation e => sr_set_elevation s e
  | SrSetHour h => sr_set_hour s h
  | SrSetLatitude l => sr_set_latitude s l
  | SrSetQuality q => sr_set_quality s q
  | SrSetUnits u => sr_set_units s u
  | SrAltitude => snd (sr_AltitudeSun s)
  | SrAzimuth => snd (sr_AzimuthSun s)
  | SrRadiation => snd (sr_Radiation s)
  | SrValidate => snd (sr_Validate s)
  end.

Definition sr_run (s : SolarSolver) (ks : list SolarCall) : SolarSolver := fold_left sr_call ks s.

End Solar.

Arguments SolarSolver : clear implicits.
Arguments SolarCall : clear implicits.
