(** Specification of the thermal rating classes, independent of their source. *)
From Coq Require Import ZArith Bool List Reals.
From Verif Require Import Num ModelBase ModelCable ModelThermal.
Import ListNotations.
Open Scope R_scope.

(** ** The resistance table *)

(** The temperatures of a table increase. *)
Fixpoint ascending (table : list (ResistancePoint RNum)) : Prop :=
  match table with
  | p :: ((q :: _) as rest) => rp_temperature p < rp_temperature q /\ ascending rest
  | _ => True
  end.

(** The line through two points. *)
Definition line_at (p q : ResistancePoint RNum) (t : R) : R :=
  rp_resistance p + (rp_resistance q - rp_resistance p) / (rp_temperature q - rp_temperature p) * (t - rp_temperature p).

(** The documented value: the first segment that ends at or above the temperature, else
    the last one. *)
Fixpoint interpolated (p q : ResistancePoint RNum) (rest : list (ResistancePoint RNum)) (t : R) : R :=
  match rest with
  | [] => line_at p q t
  | r :: rest => if Rle_dec t (rp_temperature q) then line_at p q t else interpolated q r rest t
  end.

(** The last segment of a table. *)
Fixpoint last_segment (p q : ResistancePoint RNum) (rest : list (ResistancePoint RNum))
    : ResistancePoint RNum * ResistancePoint RNum :=
  match rest with
  | [] => (p, q)
  | r :: rest => last_segment q r rest
  end.

(** ** Objects with given inputs *)

Definition sc_fresh {N : Num} c (t : N) u w : CurrentSolver N :=
  sc_set_weather (sc_set_units (sc_set_temperature (sc_set_cable CurrentSolver_default c) t) u) w.

Definition st_fresh {N : Num} c (i : N) u w : TemperatureSolver N :=
  st_set_weather (st_set_units (st_set_current (st_set_cable TemperatureSolver_default c) i) u) w.

Definition ts_fresh {N : Num} c (i1 i2 : N) d u w : TransientSolver N :=
  ts_set_weather (ts_set_units (ts_set_duration (ts_set_current_step (ts_set_current_steady
    (ts_set_cable TransientSolver_default c) i1) i2) d) u) w.

(** A new solver with the inputs of another one. *)
Definition sc_renew {N : Num} (s : CurrentSolver N) := sc_fresh (sc_cable s) (sc_temperature s) (sc_units s) (sc_weather s).
Definition st_renew {N : Num} (s : TemperatureSolver N) := st_fresh (st_cable s) (st_current s) (st_units s) (st_weather s).
Definition ts_renew {N : Num} (s : TransientSolver N) :=
  ts_fresh (ts_cable s) (ts_current_steady s) (ts_current_step s) (ts_duration s) (ts_units s) (ts_weather s).

(** Equal answers to every query. *)
Definition sc_same {N : Num} (s s' : CurrentSolver N) : Prop :=
  omap fst (sc_Current s) = omap fst (sc_Current s') /\
  omap fst (sc_StateHeatTransfer s) = omap fst (sc_StateHeatTransfer s') /\
  omap fst (sc_Validate s) = omap fst (sc_Validate s').

Definition st_same {N : Num} (s s' : TemperatureSolver N) : Prop :=
  omap fst (st_TemperatureCable s) = omap fst (st_TemperatureCable s') /\
  omap fst (st_StateHeatTransfer s) = omap fst (st_StateHeatTransfer s') /\
  omap fst (st_Validate s) = omap fst (st_Validate s').

Definition ts_same {N : Num} (s s' : TransientSolver N) : Prop :=
  omap fst (ts_PointsTemperature s) = omap fst (ts_PointsTemperature s') /\
  omap fst (ts_Validate s) = omap fst (ts_Validate s').

(** ** Histories after which the unit system or the weather may be newer than the cache *)
Inductive event : Type := EvReset | EvSoft | EvQuery | EvValidate.

Definition current_event {N : Num} (k : CurrentCall N) : event :=
  match k with
  | CcSetCable _ | CcSetTemperature _ => EvReset
  | CcSetUnits _ | CcSetWeather _ => EvSoft
  | CcCurrent | CcState => EvQuery
  | CcValidate => EvValidate
  end.

Definition temperature_event {N : Num} (k : TemperatureCall N) : event :=
  match k with
  | TcSetCable _ | TcSetCurrent _ => EvReset
  | TcSetUnits _ | TcSetWeather _ => EvSoft
  | TcTemperature | TcState => EvQuery
  | TcValidate => EvValidate
  end.

(** A unit system or weather was set after an answer, and neither a cable, a temperature
    or current, nor Validate followed. *)
Fixpoint stale (answered dirty : bool) (es : list event) : bool :=
  match es with
  | [] => dirty
  | EvReset :: es => stale false false es
  | EvSoft :: es => stale answered (dirty || answered) es
  | EvQuery :: es => stale true dirty es
  | EvValidate :: es => stale true false es
  end.

(** ** The inputs that calls set *)
Definition pickC_cable {N : Num} (k : CurrentCall N) := match k with CcSetCable c => Some c | _ => None end.
Definition pickC_temperature {N : Num} (k : CurrentCall N) := match k with CcSetTemperature t => Some t | _ => None end.
Definition pickC_units {N : Num} (k : CurrentCall N) := match k with CcSetUnits u => Some u | _ => None end.
Definition pickC_weather {N : Num} (k : CurrentCall N) := match k with CcSetWeather w => Some w | _ => None end.
Definition pickT_cable {N : Num} (k : TemperatureCall N) := match k with TcSetCable c => Some c | _ => None end.
Definition pickT_current {N : Num} (k : TemperatureCall N) := match k with TcSetCurrent t => Some t | _ => None end.
Definition pickT_units {N : Num} (k : TemperatureCall N) := match k with TcSetUnits u => Some u | _ => None end.
Definition pickT_weather {N : Num} (k : TemperatureCall N) := match k with TcSetWeather w => Some w | _ => None end.
Definition pickR_cable {N : Num} (k : TransientCall N) := match k with RcSetCable c => Some c | _ => None end.
Definition pickR_steady {N : Num} (k : TransientCall N) := match k with RcSetCurrentSteady i => Some i | _ => None end.
Definition pickR_step {N : Num} (k : TransientCall N) := match k with RcSetCurrentStep i => Some i | _ => None end.
Definition pickR_duration {N : Num} (k : TransientCall N) := match k with RcSetDuration d => Some d | _ => None end.
Definition pickR_units {N : Num} (k : TransientCall N) := match k with RcSetUnits u => Some u | _ => None end.
Definition pickR_weather {N : Num} (k : TransientCall N) := match k with RcSetWeather w => Some w | _ => None end.

(** ** The temperature history *)

(** Each point follows from the one before by the stored heat over the total capacity. *)
Definition heats_up (c : Cable RNum) (h : HeatSolver RNum) (current : R) (t t' : R) : Prop :=
  exists conv rad res sol : R,
    hs_HeatConvection h t = Ok conv /\ hs_HeatRadiation h t = Ok rad /\
    hs_HeatResistance h t current = Ok res /\ hs_HeatSolar h = Ok sol /\
    t' = t + (sol + res + conv + rad) / (cc_capacity_heat (cb_core c) + cc_capacity_heat (cb_shell c)).

(** Every query and Validate of a history comes after a weather that is not null. *)
Fixpoint weather_first {N : Num} (w : option (ThermalRatingWeather N)) (ks : list (TemperatureCall N)) : Prop :=
  match ks with
  | [] => True
  | k :: ks =>
      (temperature_event k = EvQuery \/ temperature_event k = EvValidate -> w <> None) /\
      weather_first (match k with TcSetWeather w => w | _ => w end) ks
  end.
