(** What LineCable::Validate is to check, in terms of the inputs of the line cable. *)
From Coq Require Import ZArith Bool List Reals.
From Verif Require Import Num ModelBase ModelAlignment ModelLine ModelCable ModelCatenary ModelLoad ModelSagtension.
Import ListNotations.
Open Scope R_scope.

(** A weather case that is set, with nothing negative and a temperature of at least -50. *)
Definition weather_set (w : option (WeatherLoadCase RNum)) : Prop :=
  exists c, w = Some c /\ 0 <= wl_density_ice c /\ 0 <= wl_pressure_wind c /\
    -50 <= wl_temperature_cable c /\ 0 <= wl_thickness_ice c.

(** All inputs besides the connections are set and in range. *)
Definition inputs_in_range (s : Stringing RNum) : Prop :=
  (exists c, sr_cable s = Some c /\ 0 <= cb_area c /\ 0 < cb_diameter c /\ 0 < cb_weight c) /\
  weather_set (co_weather (sr_constraint s)) /\ co_condition (sr_constraint s) <> CdNull /\
  co_type (sr_constraint s) <> LmNull /\ 0 <= co_limit (sr_constraint s) /\
  0 < v3x (sr_spacing s) /\ (v3y (sr_spacing s) : R) = 0 /\ -2000 <= v3z (sr_spacing s) <= 2000 /\
  weather_set (sr_creep s) /\ weather_set (sr_load s).

(** If there are two or more connections, each leads to a structure that is alive and has
    hardware at the attachment. *)
Definition connections_readable (env : Env RNum) (cs : list (Connection RNum)) : Prop :=
  (2 <= length cs)%nat ->
  forall c, In c cs -> exists s h i, ModelLine.deref env (cn_line_structure c) = Ok s /\
    cn_index_attachment c = Z.of_nat i /\ nth_error (ls_hardwares s) i = Some (Some h).
