(** Model of /repo/src/thermalrating: ThermalRatingCable, ThermalRatingWeather,
    CableHeatTransferState, CableHeatTransferSolver, SteadyCableCurrentSolver,
    SteadyCableTemperatureSolver and TransientCableTemperatureSolver.

    A pointer to a cable or to a weather is None (null) or the object pointed to.  The
    objects pointed to do not change during a history.  Error messages are not modelled. *)
From Coq Require Import ZArith Bool List.
From Verif Require Import Num ModelBase ModelCable.
Import ListNotations.
Open Scope num_scope.

Section Thermal.
Context {N : Num}.

(** ** ThermalRatingCable *)

(** thermal_rating_cable.h: the base; the two components point into it
    (thermal_rating_cable.cc 231-243) *)
Record ThermalRatingCable : Type := mkThermalRatingCable { trc_base : option (Cable N) }.

(** A dereferenced pointer. *)
Definition deref {A : Type} (p : option A) : outcome A :=
  match p with Some a => Ok a | None => UB end.

(** thermal_rating_cable.cc 86-108: the search for the two points *)
Fixpoint resistance_loop (low high : ResistancePoint N) (rest : list (ResistancePoint N)) (t : N)
    : ResistancePoint N * ResistancePoint N :=
  if (rp_temperature low <? t) && (t <? rp_temperature high) then (low, high)
  else if (rp_temperature low <? t) && (rp_temperature high <? t) then (low, high)
  else match rest with
       | [] => (low, high)
       | p :: rest => resistance_loop high p rest t
       end.

(** thermal_rating_cable.cc 70-115, for the table of the base *)
Definition table_resistance (table : list (ResistancePoint N)) (t : N) : N :=
  match table with
  | low :: high :: rest =>
      let '(low, high) := resistance_loop low high rest t in
      LinearY (rp_temperature low) (rp_resistance low) (rp_temperature high) (rp_resistance high) t
  | _ => ferr
  end.

(** thermal_rating_cable.cc 70-115 *)
Definition trc_Resistance (c : ThermalRatingCable) (t : N) : outcome N :=
  do b <- deref (trc_base c); Ok (table_resistance (cb_resistances b) t).

(** thermal_rating_cable.cc 15-47, for a component of a non-null base *)
Definition component_valid (c : CableComponent N) : bool :=
  CableComponent_Validate c && negb (cc_capacity_heat c <? #0).

(** thermal_rating_cable.cc 165-184 *)
Fixpoint temperatures_ascend (table : list (ResistancePoint N)) : bool :=
  match table with
  | prev :: ((point :: _) as rest) =>
      negb (rp_temperature point <=? rp_temperature prev) && temperatures_ascend rest
  | _ => true
  end.

(** thermal_rating_cable.cc 117-200 *)
Definition trc_Validate (c : ThermalRatingCable) : bool :=
  match trc_base c with
  | None => false
  | Some b =>
      Cable_Validate b
      && negb ((cb_absorptivity b <? #0) || (#1 <? cb_absorptivity b))
      && negb ((cb_emissivity b <? #0) || (#1 <? cb_emissivity b))
      && (2 <=? Z.of_nat (length (cb_resistances b)))%Z && temperatures_ascend (cb_resistances b)
      && component_valid (cb_core b) && component_valid (cb_shell b)
  end.

(** ** ThermalRatingWeather *)

(** thermal_rating_weather.h: the members *)
Record ThermalRatingWeather : Type := mkThermalRatingWeather {
  tw_angle_wind : N;
  tw_elevation : N;
  tw_radiation_solar : N;
  tw_speed_wind : N;
  tw_temperature_air : N
}.

(** thermal_rating_weather.cc 6-12 *)
Definition ThermalRatingWeather_default : ThermalRatingWeather :=
  mkThermalRatingWeather ferr ferr ferr ferr ferr.

(** thermal_rating_weather.cc 17-71 *)
Definition tw_Validate (w : ThermalRatingWeather) : bool :=
  negb ((tw_angle_wind w <? #0) || (#90 <? tw_angle_wind w))
  && negb (tw_elevation w <? #0) && negb (tw_radiation_solar w <? #0) && negb (tw_speed_wind w <? #0)
  && negb ((tw_temperature_air w <? #(-100)) || (#100 <? tw_temperature_air w)).

(** ** CableHeatTransferState *)

(** cable_heat_transfer_state.h 38-58 *)
Record HeatState : Type := mkHeatState {
  ht_convection : N;
  ht_radiation : N;
  ht_resistance : N;
  ht_solar : N;
  ht_storage : N
}.

(** cable_heat_transfer_state.cc 6-12 *)
Definition HeatState_default : HeatState := mkHeatState #999999 #999999 ferr ferr ferr.

(** cable_heat_transfer_state.cc 17-71 *)
Definition ht_Validate (s : HeatState) : bool :=
  negb (#0 <? ht_convection s) && negb (#0 <? ht_radiation s) && negb (ht_resistance s <? #0)
  && negb (ht_solar s <? #0)
  && negb ((ht_storage s <=? #(-999999)) || (#999999 <=? ht_storage s)).

(** ** CableHeatTransferSolver *)

(** cable_heat_transfer_solver.h: the members *)
Record HeatSolver : Type := mkHeatSolver {
  hs_cable : option ThermalRatingCable;
  hs_units : UnitSystem;
  hs_weather : option ThermalRatingWeather
}.

(** cable_heat_transfer_solver.cc 8-12 *)
Definition HeatSolver_default : HeatSolver := mkHeatSolver None USNull None.

(** thermal_rating_cable.cc 202-224: the base of a dereferenced cable pointer *)
Definition base_of (c : option ThermalRatingCable) : outcome (Cable N) :=
  do c <- deref c; deref (trc_base c).

(** cable_heat_transfer_solver.cc 23-35 *)
Definition conductivity_air (u : UnitSystem) (film : N) : N :=
  match u with
  | Imperial =>
      flit 7388 (-3) * fpow #10 #(-3) + flit 2279 (-3) * fpow #10 #(-5) * film
      - flit 1343 (-3) * fpow #10 #(-9) * fpow film #2
  | _ =>
      flit 2424 (-3) * fpow #10 #(-2) + flit 7477 (-3) * fpow #10 #(-5) * film
      - flit 4407 (-3) * fpow #10 #(-9) * fpow film #2
  end.

(** cable_heat_transfer_solver.cc 37-49 *)
Definition density_air (u : UnitSystem) (elevation film : N) : N :=
  match u with
  | Imperial =>
      (flit 80695 (-6) - flit 2901 (-3) * fpow #10 #(-6) * elevation
       + flit 37 (-1) * fpow #10 #(-11) * fpow elevation #2) / (#1 + flit 367 (-5) * film)
  | _ =>
      (flit 1293 (-3) - flit 1525 (-3) * fpow #10 #(-4) * elevation
       + flit 6379 (-3) * fpow #10 #(-9) * fpow elevation #2) / (#1 + flit 367 (-5) * film)
  end.

(** cable_heat_transfer_solver.cc 51-65 *)
Definition viscosity_air (u : UnitSystem) (film : N) : N :=
  match u with
  | Imperial => (flit 353 (-5) * fpow (film + #273) (flit 15 (-1))) / (film + flit 3834 (-1)) / #3600
  | _ => (flit 1458 (-3) * fpow #10 #(-6) * fpow (film + #273) (flit 15 (-1))) / (film + flit 3834 (-1))
  end.

(** cable_heat_transfer_solver.cc 199-239 *)
Definition HeatConvectionForced (diameter : N) (w : ThermalRatingWeather) (conductivity density viscosity t : N) : N :=
  let num_reynolds := (diameter * density * tw_speed_wind w) / viscosity in
  let angle := deg2rad (tw_angle_wind w) in
  let factor := flit 1194 (-3) - fcos angle + flit 194 (-3) * fcos (#2 * angle) + flit 368 (-3) * fsin (#2 * angle) in
  let forced_1 := factor * (flit 101 (-2) + flit 135 (-2) * fpow num_reynolds (flit 52 (-2))) * conductivity
                  * (t - tw_temperature_air w) in
  let forced_2 := factor * flit 754 (-3) * fpow num_reynolds (flit 6 (-1)) * conductivity
                  * (t - tw_temperature_air w) in
  if forced_1 <=? forced_2 then forced_2 else forced_1.

(** cable_heat_transfer_solver.cc 241-258 *)
Definition HeatConvectionNatural (u : UnitSystem) (diameter : N) (w : ThermalRatingWeather) (density t : N) : N :=
  match u with
  | USNull => ferr
  | _ =>
      (match u with Imperial => flit 1825 (-3) | _ => flit 3645 (-3) end)
      * fpow density (flit 5 (-1)) * fpow diameter (flit 75 (-2))
      * fpow (t - tw_temperature_air w) (flit 125 (-2))
  end.

(** cable_heat_transfer_solver.cc 17-86, for a unit system that is not null *)
Definition convection (u : UnitSystem) (diameter : N) (w : ThermalRatingWeather) (t : N) : N :=
  let film := (t + tw_temperature_air w) / #2 in
  let density := density_air u (tw_elevation w) film in
  let forced := HeatConvectionForced diameter w (conductivity_air u film) density (viscosity_air u film) t in
  let natural := HeatConvectionNatural u diameter w density t in
  if natural <? forced then #(-1) * forced else #(-1) * natural.

(** cable_heat_transfer_solver.cc 17-86; [false] is converted to 0 (34) *)
Definition hs_HeatConvection (h : HeatSolver) (t : N) : outcome N :=
  do w <- deref (hs_weather h);
  match hs_units h with
  | USNull => Ok #0
  | u => do b <- base_of (hs_cable h); Ok (convection u (cb_diameter b) w t)
  end.

(** cable_heat_transfer_solver.cc 88-105 *)
Definition radiation (u : UnitSystem) (b : Cable N) (w : ThermalRatingWeather) (t : N) : N :=
  let k := match u with Imperial => flit 1656 (-3) | Metric => flit 178 (-1) | USNull => ferr end in
  let k1 := k * cb_diameter b * cb_emissivity b in
  let k2 := fpow ((t + #273) / #100) #4 in
  let k3 := fpow ((tw_temperature_air w + #273) / #100) #4 in
  #(-1) * k1 * (k2 - k3).

Definition hs_HeatRadiation (h : HeatSolver) (t : N) : outcome N :=
  do b <- base_of (hs_cable h); do w <- deref (hs_weather h); Ok (radiation (hs_units h) b w t).

(** cable_heat_transfer_solver.cc 107-115 *)
Definition hs_HeatResistance (h : HeatSolver) (t current : N) : outcome N :=
  do c <- deref (hs_cable h); do r <- trc_Resistance c t; Ok (fpow current #2 * r).

(** cable_heat_transfer_solver.cc 117-122 *)
Definition solar (b : Cable N) (w : ThermalRatingWeather) : N :=
  cb_absorptivity b * tw_radiation_solar w * (cb_diameter b * #1).

Definition hs_HeatSolar (h : HeatSolver) : outcome N :=
  do b <- base_of (hs_cable h); do w <- deref (hs_weather h); Ok (solar b w).

(** cable_heat_transfer_solver.cc 124-127 *)
Definition HeatStored (heat_in heat_out : N) : N := heat_in + heat_out.

(** cable_heat_transfer_solver.cc 129-173 *)
Definition hs_Validate (h : HeatSolver) : bool :=
  match hs_cable h with None => false | Some c => trc_Validate c end
  && match hs_units h with USNull => false | _ => true end
  && match hs_weather h with None => false | Some w => tw_Validate w end.

(** ** SteadyCableCurrentSolver *)

(** steady_cable_current_solver.h: the members *)
Record CurrentSolver : Type := mkCurrentSolver {
  sc_cable : option ThermalRatingCable;
  sc_temperature : N;
  sc_units : UnitSystem;
  sc_weather : option ThermalRatingWeather;
  sc_state : HeatState;
  sc_current : N;
  sc_is_updated : bool
}.

(** steady_cable_current_solver.cc 11-21 *)
Definition CurrentSolver_default : CurrentSolver :=
  mkCurrentSolver None ferr USNull None HeatState_default ferr false.

(** steady_cable_current_solver.cc 171-188: the state for given inputs, None for failure *)
Definition current_state (c : option ThermalRatingCable) (t : N) (u : UnitSystem) (w : option ThermalRatingWeather)
    : outcome (option HeatState) :=
  let h := mkHeatSolver c u w in
  if negb (hs_Validate h) then Ok None
  else
    do convection <- hs_HeatConvection h t;
    do radiation <- hs_HeatRadiation h t;
    do solar <- hs_HeatSolar h;
    Ok (Some (mkHeatState convection radiation (#(-1) * (convection + radiation + solar)) solar #0)).

(** steady_cable_current_solver.cc 150-163 *)
Definition current_of (c : option ThermalRatingCable) (t : N) (s : HeatState) : outcome N :=
  do c <- deref c;
  do r <- trc_Resistance c t;
  let i := fsqrt (fabs (ht_resistance s) / r) in
  Ok (if ht_resistance s <? #0 then i * #(-1) else i).

(** steady_cable_current_solver.cc 191-206: the result and the object afterwards *)
Definition sc_Update (s : CurrentSolver) : outcome (bool * CurrentSolver) :=
  do st <- current_state (sc_cable s) (sc_temperature s) (sc_units s) (sc_weather s);
  match st with
  | None => Ok (false, mkCurrentSolver (sc_cable s) (sc_temperature s) (sc_units s) (sc_weather s)
                         (sc_state s) (sc_current s) false)
  | Some st =>
      do i <- current_of (sc_cable s) (sc_temperature s) st;
      Ok (true, mkCurrentSolver (sc_cable s) (sc_temperature s) (sc_units s) (sc_weather s) st i true)
  end.

(** steady_cable_current_solver.cc 28 and 37 *)
Definition sc_ensure (s : CurrentSolver) : outcome (bool * CurrentSolver) :=
  if sc_is_updated s then Ok (true, s) else sc_Update s.

(** steady_cable_current_solver.cc 26-33 *)
Definition sc_Current (s : CurrentSolver) : outcome (N * CurrentSolver) :=
  do (b, s) <- sc_ensure s; Ok (if b then sc_current s else ferr, s).

(** steady_cable_current_solver.cc 35-42 *)
Definition sc_StateHeatTransfer (s : CurrentSolver) : outcome (HeatState * CurrentSolver) :=
  do (b, s) <- sc_ensure s; Ok (if b then sc_state s else HeatState_default, s).

(** steady_cable_current_solver.cc 44-108: Update is called always *)
Definition sc_Validate (s : CurrentSolver) : outcome (bool * CurrentSolver) :=
  let v := match sc_cable s with None => false | Some c => trc_Validate c end
    && negb ((sc_temperature s <? #(-100)) || (#500 <? sc_temperature s))
    && match sc_units s with USNull => false | _ => true end
    && match sc_weather s with None => false | Some w => tw_Validate w end in
  do (b, s) <- sc_Update s; Ok (v && b, s).

(** steady_cable_current_solver.cc 114-132: set_units and set_weather leave the flag *)
Definition sc_set_cable (s : CurrentSolver) (c : option ThermalRatingCable) : CurrentSolver :=
  mkCurrentSolver c (sc_temperature s) (sc_units s) (sc_weather s) (sc_state s) (sc_current s) false.
Definition sc_set_temperature (s : CurrentSolver) (t : N) : CurrentSolver :=
  mkCurrentSolver (sc_cable s) t (sc_units s) (sc_weather s) (sc_state s) (sc_current s) false.
Definition sc_set_units (s : CurrentSolver) (u : UnitSystem) : CurrentSolver :=
  mkCurrentSolver (sc_cable s) (sc_temperature s) u (sc_weather s) (sc_state s) (sc_current s) (sc_is_updated s).
Definition sc_set_weather (s : CurrentSolver) (w : option ThermalRatingWeather) : CurrentSolver :=
  mkCurrentSolver (sc_cable s) (sc_temperature s) (sc_units s) w (sc_state s) (sc_current s) (sc_is_updated s).

(** A history of calls; the getters change nothing. *)
Inductive CurrentCall : Type :=
| CcSetCable (c : option ThermalRatingCable) | CcSetTemperature (t : N)
| CcSetUnits (u : UnitSystem) | CcSetWeather (w : option ThermalRatingWeather)
| CcCurrent | CcState | CcValidate.

Definition sc_call (s : CurrentSolver) (k : CurrentCall) : outcome CurrentSolver :=
  match k with
  | CcSetCable c => Ok (sc_set_cable s c)
  | CcSetTemperature t => Ok (sc_set_temperature s t)
  | CcSetUnits u => Ok (sc_set_units s u)
  | CcSetWeather w => Ok (sc_set_weather s w)
  | CcCurrent => omap snd (sc_Current s)
  | CcState => omap snd (sc_StateHeatTransfer s)
  | CcValidate => omap snd (sc_Validate s)
  end.

Fixpoint sc_run (s : CurrentSolver) (ks : list CurrentCall) : outcome CurrentSolver :=
  match ks with
  | [] => Ok s
  | k :: ks => do s <- sc_call s k; sc_run s ks
  end.

(** ** SteadyCableTemperatureSolver *)

(** steady_cable_temperature_solver.h: the members *)
Record TemperatureSolver : Type := mkTemperatureSolver {
  st_cable : option ThermalRatingCable;
  st_current : N;
  st_units : UnitSystem;
  st_weather : option ThermalRatingWeather;
  st_state : HeatState;
  st_temperature : N;
  st_is_updated : bool
}.

(** steady_cable_temperature_solver.cc 11-21 *)
Definition TemperatureSolver_default : TemperatureSolver :=
  mkTemperatureSolver None ferr USNull None HeatState_default ferr false.

(** The variables of the loop. *)
Record TempState : Type := mkTempState {
  tl_left : Point2d N;
  tl_right : Point2d N;
  tl_current : Point2d N;
  tl_iter : Z;
  tl_solver : CurrentSolver
}.

(** steady_cable_temperature_solver.cc 183-218: one pass of the loop *)
Definition temp_pass (target : N) (s : TempState) : outcome TempState :=
  let l := tl_left s in
  let r := tl_right s in
  let slope_line := (p2y r - p2y l) / (p2x r - p2x l) in
  let x := p2x l + ((target - p2y l) / slope_line) in
  do (y, solver) <- sc_Current (sc_set_temperature (tl_solver s) x);
  let current := mkPoint2d x y in
  let '(l, r) :=
    if x <? p2x l then (current, l)
    else if (p2x l <? x) && (x <? p2x r) then
      if y <? target then (l, current)
      else if target <? y then (current, r)
      else (l, r)
    else if p2x r <? x then (r, current)
    else (l, r) in
  Ok (mkTempState l r current (tl_iter s + 1) solver).

(** steady_cable_temperature_solver.cc 182: the loop.  It makes at most 101 passes, so it
    never needs more fuel than [Z.to_nat 102]. *)
Fixpoint temp_loop (target : N) (fuel : nat) (s : TempState) : outcome TempState :=
  match fuel with
  | O => Ok s
  | S fuel =>
      if (flit 1 (-1) <? fabs (p2x (tl_left s) - p2x (tl_right s))) && (tl_iter s <=? 100)%Z
      then do s <- temp_pass target s; temp_loop target fuel s
      else Ok s
  end.

(** steady_cable_temperature_solver.cc 149-231: the result, the state and the temperature *)
Definition solve_temperature (c : option ThermalRatingCable) (current : N) (u : UnitSystem)
    (w : option ThermalRatingWeather) : outcome (bool * (HeatState * N)) :=
  let solver := sc_set_weather (sc_set_units (sc_set_cable CurrentSolver_default c) u) w in
  do air <- deref w;
  let air := tw_temperature_air air in
  do (yl, solver) <- sc_Current (sc_set_temperature solver air);
  do (yr, solver) <- sc_Current (sc_set_temperature solver (air + #10));
  do s <- temp_loop current (Z.to_nat 102)
            (mkTempState (mkPoint2d air yl) (mkPoint2d (air + #10) yr) Point2d_default 0 solver);
  if (tl_iter s <? 100)%Z then
    do (state, _) <- sc_StateHeatTransfer (tl_solver s);
    Ok (true, (state, p2x (tl_current s)))
  else Ok (false, (HeatState_default, ferr)).

(** steady_cable_temperature_solver.cc 233-242 *)
Definition st_Update (s : TemperatureSolver) : outcome (bool * TemperatureSolver) :=
  do (b, (state, t)) <- solve_temperature (st_cable s) (st_current s) (st_units s) (st_weather s);
  Ok (b, mkTemperatureSolver (st_cable s) (st_current s) (st_units s) (st_weather s) state t b).

(** steady_cable_temperature_solver.cc 28 and 37 *)
Definition st_ensure (s : TemperatureSolver) : outcome (bool * TemperatureSolver) :=
  if st_is_updated s then Ok (true, s) else st_Update s.

(** steady_cable_temperature_solver.cc 26-33 *)
Definition st_StateHeatTransfer (s : TemperatureSolver) : outcome (HeatState * TemperatureSolver) :=
  do (b, s) <- st_ensure s; Ok (if b then st_state s else HeatState_default, s).

(** steady_cable_temperature_solver.cc 35-42 *)
Definition st_TemperatureCable (s : TemperatureSolver) : outcome (N * TemperatureSolver) :=
  do (b, s) <- st_ensure s; Ok (if b then st_temperature s else ferr, s).

(** steady_cable_temperature_solver.cc 44-108: Update is called always *)
Definition st_Validate (s : TemperatureSolver) : outcome (bool * TemperatureSolver) :=
  let v := match st_cable s with None => false | Some c => trc_Validate c end
    && negb (st_current s <? #0)
    && match st_units s with USNull => false | _ => true end
    && match st_weather s with None => false | Some w => tw_Validate w end in
  do (b, s) <- st_Update s; Ok (v && b, s).

(** steady_cable_temperature_solver.cc 118-135: set_units and set_weather leave the flag *)
Definition st_set_cable (s : TemperatureSolver) (c : option ThermalRatingCable) : TemperatureSolver :=
  mkTemperatureSolver c (st_current s) (st_units s) (st_weather s) (st_state s) (st_temperature s) false.
Definition st_set_current (s : TemperatureSolver) (i : N) : TemperatureSolver :=
  mkTemperatureSolver (st_cable s) i (st_units s) (st_weather s) (st_state s) (st_temperature s) false.
Definition st_set_units (s : TemperatureSolver) (u : UnitSystem) : TemperatureSolver :=
  mkTemperatureSolver (st_cable s) (st_current s) u (st_weather s) (st_state s) (st_temperature s) (st_is_updated s).
Definition st_set_weather (s : TemperatureSolver) (w : option ThermalRatingWeather) : TemperatureSolver :=
  mkTemperatureSolver (st_cable s) (st_current s) (st_units s) w (st_state s) (st_temperature s) (st_is_updated s).

Inductive TemperatureCall : Type :=
| TcSetCable (c : option ThermalRatingCable) | TcSetCurrent (i : N)
| TcSetUnits (u : UnitSystem) | TcSetWeather (w : option ThermalRatingWeather)
| TcTemperature | TcState | TcValidate.

Definition st_call (s : TemperatureSolver) (k : TemperatureCall) : outcome TemperatureSolver :=
  match k with
  | TcSetCable c => Ok (st_set_cable s c)
  | TcSetCurrent i => Ok (st_set_current s i)
  | TcSetUnits u => Ok (st_set_units s u)
  | TcSetWeather w => Ok (st_set_weather s w)
  | TcTemperature => omap snd (st_TemperatureCable s)
  | TcState => omap snd (st_StateHeatTransfer s)
  | TcValidate => omap snd (st_Validate s)
  end.

Fixpoint st_run (s : TemperatureSolver) (ks : list TemperatureCall) : outcome TemperatureSolver :=
  match ks with
  | [] => Ok s
  | k :: ks => do s <- st_call s k; st_run s ks
  end.

(** ** TransientCableTemperatureSolver *)

(** transient_cable_temperature_solver.h 19-27 *)
Record TemperaturePoint : Type := mkTemperaturePoint { tp_time : Z; tp_temperature : N }.

(** transient_cable_temperature_solver.h: the members.  The member solver_ is set up anew
    by every update (223-226) and is not observable; it is left out. *)
Record TransientSolver : Type := mkTransientSolver {
  ts_cable : option ThermalRatingCable;
  ts_current_steady : N;
  ts_current_step : N;
  ts_duration : Z;
  ts_units : UnitSystem;
  ts_weather : option ThermalRatingWeather;
  ts_points : list TemperaturePoint;
  ts_is_updated : bool
}.

(** transient_cable_temperature_solver.cc 8-19 *)
Definition TransientSolver_default : TransientSolver :=
  mkTransientSolver None ferr ferr (-9999) USNull None [] false.

(** transient_cable_temperature_solver.cc 162-175 *)
Definition ts_HeatTransferState (h : HeatSolver) (current t : N) : outcome HeatState :=
  do convection <- hs_HeatConvection h t;
  do radiation <- hs_HeatRadiation h t;
  do resistance <- hs_HeatResistance h t current;
  do solar <- hs_HeatSolar h;
  Ok (mkHeatState convection radiation resistance solar (HeatStored (resistance + solar) (convection + radiation))).

(** transient_cable_temperature_solver.cc 181-195 *)
Definition TemperatureNew (c : option ThermalRatingCable) (t : N) (s : HeatState) (time_delta : Z) : outcome N :=
  do b <- base_of c;
  let capacity := cc_capacity_heat (cb_core b) + cc_capacity_heat (cb_shell b) in
  Ok (t + #time_delta * (ht_storage s / capacity)).

(** transient_cable_temperature_solver.cc 197-206 *)
Definition TemperatureSteady (s : TransientSolver) (current : N) : outcome N :=
  let solver := st_set_weather (st_set_units (st_set_current (st_set_cable TemperatureSolver_default (ts_cable s)) current)
    (ts_units s)) (ts_weather s) in
  omap fst (st_TemperatureCable solver).

(** transient_cable_temperature_solver.cc 235-259: [fuel] more points from [time] on;
    [prev] is the temperature of the last point *)
Fixpoint points_loop (s : TransientSolver) (fuel : nat) (time : Z) (prev : option N) : outcome (list TemperaturePoint) :=
  match fuel with
  | O => Ok []
  | S fuel =>
      do t <- (if (time =? 0)%Z then TemperatureSteady s (ts_current_steady s)
               else do prev <- deref prev;
                    do state <- ts_HeatTransferState (mkHeatSolver (ts_cable s) (ts_units s) (ts_weather s)) (ts_current_step s) prev;
                    TemperatureNew (ts_cable s) prev state 1);
      do rest <- points_loop s fuel (time + 1) (Some t);
      Ok (mkTemperaturePoint time t :: rest)
  end.

(** transient_cable_temperature_solver.cc 219-262 *)
Definition UpdateTemperaturePoints (s : TransientSolver) : outcome (bool * list TemperaturePoint) :=
  if negb (hs_Validate (mkHeatSolver (ts_cable s) (ts_units s) (ts_weather s))) then Ok (false, [])
  else do points <- points_loop s (Z.to_nat (ts_duration s + 1)) 0 None; Ok (true, points).

(** transient_cable_temperature_solver.cc 208-217 *)
Definition ts_Update (s : TransientSolver) : outcome (bool * TransientSolver) :=
  do (b, points) <- UpdateTemperaturePoints s;
  Ok (b, mkTransientSolver (ts_cable s) (ts_current_steady s) (ts_current_step s) (ts_duration s) (ts_units s)
           (ts_weather s) points b).

(** transient_cable_temperature_solver.cc 24-32; None is the null pointer *)
Definition ts_PointsTemperature (s : TransientSolver) : outcome (option (list TemperaturePoint) * TransientSolver) :=
  do (b, s) <- (if ts_is_updated s then Ok (true, s) else ts_Update s);
  Ok (if b then Some (ts_points s) else None, s).

(** transient_cable_temperature_solver.cc 34-101: the cable is not checked here *)
Definition ts_Validate (s : TransientSolver) : outcome (bool * TransientSolver) :=
  let v := negb (ts_current_steady s <? #0) && negb (ts_current_step s <? #0) && negb (ts_duration s <? 0)%Z
    && match ts_units s with USNull => false | _ => true end
    && match ts_weather s with None => false | Some w => tw_Validate w end in
  do (b, s) <- ts_Update s; Ok (v && b, s).

(** transient_cable_temperature_solver.cc 119-152 *)
Definition ts_set_cable (s : TransientSolver) (c : option ThermalRatingCable) : TransientSolver :=
  mkTransientSolver c (ts_current_steady s) (ts_current_step s) (ts_duration s) (ts_units s) (ts_weather s) (ts_points s) false.
Definition ts_set_current_steady (s : TransientSolver) (i : N) : TransientSolver :=
  mkTransientSolver (ts_cable s) i (ts_current_step s) (ts_duration s) (ts_units s) (ts_weather s) (ts_points s) false.
Definition ts_set_current_step (s : TransientSolver) (i : N) : TransientSolver :=
  mkTransientSolver (ts_cable s) (ts_current_steady s) i (ts_duration s) (ts_units s) (ts_weather s) (ts_points s) false.
Definition ts_set_duration (s : TransientSolver) (d : Z) : TransientSolver :=
  mkTransientSolver (ts_cable s) (ts_current_steady s) (ts_current_step s) d (ts_units s) (ts_weather s) (ts_points s) false.
Definition ts_set_units (s : TransientSolver) (u : UnitSystem) : TransientSolver :=
  mkTransientSolver (ts_cable s) (ts_current_steady s) (ts_current_step s) (ts_duration s) u (ts_weather s) (ts_points s) false.
Definition ts_set_weather (s : TransientSolver) (w : option ThermalRatingWeather) : TransientSolver :=
  mkTransientSolver (ts_cable s) (ts_current_steady s) (ts_current_step s) (ts_duration s) (ts_units s) w (ts_points s) false.

Inductive TransientCall : Type :=
| RcSetCable (c : option ThermalRatingCable) | RcSetCurrentSteady (i : N) | RcSetCurrentStep (i : N)
| RcSetDuration (d : Z) | RcSetUnits (u : UnitSystem) | RcSetWeather (w : option ThermalRatingWeather)
| RcPoints | RcValidate.

Definition ts_call (s : TransientSolver) (k : TransientCall) : outcome TransientSolver :=
  match k with
  | RcSetCable c => Ok (ts_set_cable s c)
  | RcSetCurrentSteady i => Ok (ts_set_current_steady s i)
  | RcSetCurrentStep i => Ok (ts_set_current_step s i)
  | RcSetDuration d => Ok (ts_set_duration s d)
  | RcSetUnits u => Ok (ts_set_units s u)
  | RcSetWeather w => Ok (ts_set_weather s w)
  | RcPoints => omap snd (ts_PointsTemperature s)
  | RcValidate => omap snd (ts_Validate s)
  end.

Fixpoint ts_run (s : TransientSolver) (ks : list TransientCall) : outcome TransientSolver :=
  match ks with
  | [] => Ok s
  | k :: ks => do s <- ts_call s k; ts_run s ks
  end.

End Thermal.

Arguments ThermalRatingCable : clear implicits.
Arguments ThermalRatingWeather : clear implicits.
Arguments HeatState : clear implicits.
Arguments HeatSolver : clear implicits.
Arguments CurrentSolver : clear implicits.
Arguments CurrentCall : clear implicits.
Arguments TemperatureSolver : clear implicits.
Arguments TempState : clear implicits.
Arguments TemperatureCall : clear implicits.
Arguments TemperaturePoint : clear implicits.
Arguments TransientSolver : clear implicits.
Arguments TransientCall : clear implicits.
