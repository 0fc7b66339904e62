(** Weathers and cables that carry less current. *)
From Coq Require Import Reals.
From Verif Require Import Num ModelBase ModelCable ModelThermal.
Open Scope R_scope.

(** [w'] is at least as hot and as sunny as [w], with no more wind, at the same elevation. *)
Record harsher (w w' : ThermalRatingWeather RNum) : Prop := {
  hr_air : (tw_temperature_air w : R) <= tw_temperature_air w';
  hr_sun : (tw_radiation_solar w : R) <= tw_radiation_solar w';
  hr_angle : (tw_angle_wind w' : R) <= tw_angle_wind w;
  hr_speed : (tw_speed_wind w' : R) <= tw_speed_wind w;
  hr_elevation : (tw_elevation w' : R) = tw_elevation w
}.

(** [b'] is [b] with a surface that takes in no less sun and radiates no more. *)
Record duller (b b' : Cable RNum) : Prop := {
  dl_absorptivity : (cb_absorptivity b : R) <= cb_absorptivity b';
  dl_emissivity : (cb_emissivity b' : R) <= cb_emissivity b;
  dl_diameter : cb_diameter b' = cb_diameter b;
  dl_resistances : cb_resistances b' = cb_resistances b
}.
