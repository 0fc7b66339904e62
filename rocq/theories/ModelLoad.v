(** Model of Cylinder (/repo/src/base/geometric_shapes.cc), WeatherLoadCase
    (/repo/src/transmissionline/weather_load_case.cc) and CableUnitLoadSolver
    (/repo/src/transmissionline/cable_unit_load_solver.cc).

    Error messages and the description of a load case are not modelled. *)
From Coq Require Import ZArith Bool List.
From Verif Require Import Num ModelBase.
Import ListNotations.
Open Scope num_scope.

Section Load.
Context {N : Num}.

(** geometric_shapes.h: the members *)
Record Cylinder : Type := mkCylinder { cy_diameter : N; cy_length : N }.

(** geometric_shapes.cc 10-13 *)
Definition Cylinder_default : Cylinder := mkCylinder ferr ferr.

(** geometric_shapes.cc 17-19 *)
Definition AreaCrossSection (c : Cylinder) : N := (kPi / #4) * fpow (cy_diameter c) #2.

(** geometric_shapes.cc 21-47 *)
Definition Cylinder_Validate (c : Cylinder) : bool :=
  negb (cy_diameter c <=? #0) && negb (cy_length c <=? #0).

(** geometric_shapes.cc 49-51 *)
Definition Volume (c : Cylinder) : N := AreaCrossSection c * cy_length c.

(** weather_load_case.h: the members *)
Record WeatherLoadCase : Type := mkWeatherLoadCase {
  wl_density_ice : N;
  wl_pressure_wind : N;
  wl_temperature_cable : N;
  wl_thickness_ice : N
}.

(** weather_load_case.cc 8-14 *)
Definition WeatherLoadCase_default : WeatherLoadCase := mkWeatherLoadCase ferr ferr ferr ferr.

(** weather_load_case.cc 19-63 *)
Definition WeatherLoadCase_Validate (w : WeatherLoadCase) : bool :=
  negb (wl_density_ice w <? #0) && negb (wl_pressure_wind w <? #0)
  && negb (wl_temperature_cable w <? #(-50)) && negb (wl_thickness_ice w <? #0).

(** The doubles owned by the clients, by address. *)
Definition Doubles : Type := Z -> N.

(** cable_unit_load_solver.h: the two pointers; None is the null pointer *)
Record UnitLoadSolver : Type := mkUnitLoadSolver {
  ul_diameter : option Z;
  ul_weight : option Z
}.

(** cable_unit_load_solver.cc 8-11 *)
Definition UnitLoadSolver_new : UnitLoadSolver := mkUnitLoadSolver None None.

(** cable_unit_load_solver.cc 84-86 *)
Definition ul_set_diameter (s : UnitLoadSolver) (p : option Z) : UnitLoadSolver :=
  mkUnitLoadSolver p (ul_weight s).
(** cable_unit_load_solver.cc 88-91 *)
Definition ul_set_weight (s : UnitLoadSolver) (p : option Z) : UnitLoadSolver :=
  mkUnitLoadSolver (ul_diameter s) p.

(** A dereferenced pointer to a double. *)
Definition double_at (mem : Doubles) (p : option Z) : outcome N :=
  match p with Some a => Ok (mem a) | None => UB end.

(** cable_unit_load_solver.cc 25, 34: null or not positive *)
Definition bad_double (mem : Doubles) (p : option Z) : bool :=
  match p with Some a => mem a <=? #0 | None => true end.

(** cable_unit_load_solver.cc 16-43 *)
Definition ul_Validate (mem : Doubles) (s : UnitLoadSolver) : bool :=
  negb (bad_double mem (ul_diameter s)) && negb (bad_double mem (ul_weight s)).

(** cable_unit_load_solver.cc 50-74 *)
Definition UnitCableLoad (mem : Doubles) (s : UnitLoadSolver) (w : WeatherLoadCase)
    : outcome (Vector3d N) :=
  do d <- double_at mem (ul_diameter s);
  do weight <- double_at mem (ul_weight s);
  let bare := mkCylinder d #1 in
  let iced := mkCylinder (d + (#2 * wl_thickness_ice w)) #1 in
  let volume_ice := Volume iced - Volume bare in
  let weight_ice := volume_ice * wl_density_ice w in
  Ok (mkVector3d #0 (cy_diameter iced * cy_length iced * wl_pressure_wind w) (weight + weight_ice)).

(** Calls on one solver; the clients may write the doubles between calls. *)
Inductive UlCall : Type :=
| UlSetDiameter (p : option Z)
| UlSetWeight (p : option Z)
| UlWrite (a : Z) (x : N)
| UlUnitCableLoad (w : WeatherLoadCase)
| UlValidate.

(** A write of a double. *)
Definition write (mem : Doubles) (a : Z) (x : N) : Doubles := fun b => if Z.eqb a b then x else mem b.

(** The state after a call. *)
Definition ul_call (st : Doubles * UnitLoadSolver) (c : UlCall) : outcome (Doubles * UnitLoadSolver) :=
  let '(mem, s) := st in
  match c with
  | UlSetDiameter p => Ok (mem, ul_set_diameter s p)
  | UlSetWeight p => Ok (mem, ul_set_weight s p)
  | UlWrite a x => Ok (write mem a x, s)
  | UlUnitCableLoad w => do v <- UnitCableLoad mem s w; Ok (mem, s)
  | UlValidate => Ok (mem, s)
  end.

(** The state after some calls. *)
Fixpoint ul_run (st : Doubles * UnitLoadSolver) (cs : list UlCall) : outcome (Doubles * UnitLoadSolver) :=
  match cs with
  | [] => Ok st
  | c :: cs => do st <- ul_call st c; ul_run st cs
  end.

End Load.

Arguments Cylinder : clear implicits.
Arguments WeatherLoadCase : clear implicits.
Arguments UlCall : clear implicits.
Arguments Doubles : clear implicits.
