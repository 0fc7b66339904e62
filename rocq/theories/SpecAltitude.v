(** Weathers that differ in elevation only. *)
From Coq Require Import Reals.
From Verif Require Import Num ModelBase ModelThermal.
Open Scope R_scope.

(** [w'] is [w] at another elevation. *)
Record elsewhere (w w' : ThermalRatingWeather RNum) : Prop := {
  ew_air : tw_temperature_air w' = tw_temperature_air w;
  ew_sun : tw_radiation_solar w' = tw_radiation_solar w;
  ew_angle : tw_angle_wind w' = tw_angle_wind w;
  ew_speed : tw_speed_wind w' = tw_speed_wind w
}.

(** Feet, or meters: some 12 kilometers, above every line there is. *)
Definition sky (u : UnitSystem) : R := match u with Imperial => 39200 | _ => 11950 end.
