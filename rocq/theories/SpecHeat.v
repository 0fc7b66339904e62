(** What the heat transfer terms should obey, stated without the solver's formulas. *)
From Coq Require Import ZArith Reals.
From Flocq Require Import IEEE754.BinarySingleNaN.
From Verif Require Import Num ModelBase ModelCable ModelThermal.
Open Scope R_scope.

(** International foot in metres. *)
Definition foot : R := 3048 / 10000.

(** [x] and [y] differ by at most the fraction [k] of [y]. *)
Definition agree (k x y : R) : Prop := Rabs (x - y) <= k * Rabs y.

(** The same weather in feet (first) and in metres (second): elevation, wind speed and
    radiation per area change, angle and air temperature (degrees Celsius in both unit
    systems) do not. *)
Record same_weather (wi wm : ThermalRatingWeather RNum) : Prop := {
  sw_angle : (tw_angle_wind wm : R) = tw_angle_wind wi;
  sw_elevation : (tw_elevation wm : R) = foot * tw_elevation wi;
  sw_radiation : (tw_radiation_solar wi : R) = foot * foot * tw_radiation_solar wm;
  sw_speed : (tw_speed_wind wm : R) = foot * tw_speed_wind wi;
  sw_air : (tw_temperature_air wm : R) = tw_temperature_air wi
}.

(** The same surface: diameter in feet and in metres. *)
Record same_surface (bi bm : Cable RNum) : Prop := {
  ss_diameter : (cb_diameter bm : R) = foot * cb_diameter bi;
  ss_emissivity : (cb_emissivity bm : R) = cb_emissivity bi;
  ss_absorptivity : (cb_absorptivity bm : R) = cb_absorptivity bi
}.

(** Stefan-Boltzmann constant, W/(m^2 K^4), and the heat a grey cylinder of the diameter
    [d] metres and unit length loses to surroundings at [ta] degrees Celsius. *)
Definition stefan : R := 5670374419 / 100000000000000000.
Definition kelvin (t : R) : R := t + 27315 / 100.
Definition grey_body (d e t ta : R) : R := PI * d * e * stefan * (kelvin t ^ 4 - kelvin ta ^ 4).

(** [w'] has a wind that is at least as fast and as perpendicular to the cable as that of
    [w], and the same air otherwise. *)
Record windier (w w' : ThermalRatingWeather RNum) : Prop := {
  wd_angle : (tw_angle_wind w : R) <= tw_angle_wind w';
  wd_speed : (tw_speed_wind w : R) <= tw_speed_wind w';
  wd_elevation : (tw_elevation w' : R) = tw_elevation w;
  wd_air : (tw_temperature_air w' : R) = tw_temperature_air w
}.

(** The same air at rest. *)
Definition still (w : ThermalRatingWeather RNum) : ThermalRatingWeather RNum :=
  mkThermalRatingWeather (N := RNum) 0 (tw_elevation w) (tw_radiation_solar w) 0 (tw_temperature_air w).

(** std::pow as ISO C requires (F.10.4.4): a finite negative base and a finite exponent that
    is no integer give a NaN. *)
Definition c_pow (lm : Libm) : Prop := forall x y : b64, is_finite x = true -> is_finite y = true ->
  B2R x < 0 -> (forall z : Z, B2R y <> IZR z) -> is_nan (lm_pow lm x y) = true.
