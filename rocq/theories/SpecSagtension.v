(** Specification of the reloading, unloading and sagging of line cables, independent of the
    code of the classes: new objects with the last arguments, and what they answer. *)
From Coq Require Import ZArith Bool List.
From Verif Require Import Num ModelBase ModelLine ModelCatenary SpecCatenary ModelLoad ModelElongation ModelReload ModelSagtension.
Import ListNotations.
Open Scope num_scope.

Section Spec.
Context {N : Num}.

(** The arguments of the last setters of a line cable reloader. *)
Definition pickLr_line (k : LrCall N) : option (option (Strung N)) := match k with LrSetLine l => Some l | _ => None end.
Definition pickLr_condition (k : LrCall N) : option Condition := match k with LrSetCondition c => Some c | _ => None end.
Definition pickLr_weather (k : LrCall N) : option (option (WeatherLoadCase N)) :=
  match k with LrSetWeather w => Some w | _ => None end.

(** A new line cable reloader with the three setters called. *)
Definition lr_fresh (l : option (Strung N)) (c : Condition) (w : option (WeatherLoadCase N)) : Reloader N :=
  lr_set_weather (lr_set_condition (lr_set_line Reloader_new l) c) w.

(** Two line cable reloaders answer alike. *)
Definition lr_alike (env : Env N) (r s : Reloader N) : Prop :=
  omap fst (lr_Validate env r) = omap fst (lr_Validate env s) /\
  omap fst (lr_StretchStateCreep r) = omap fst (lr_StretchStateCreep s) /\
  omap fst (lr_StretchStateLoad r) = omap fst (lr_StretchStateLoad s) /\
  omap fst (lr_StateReloaded r) = omap fst (lr_StateReloaded s) /\
  omap fst (lr_TensionHorizontal r) = omap fst (lr_TensionHorizontal s) /\
  (forall t, omap fst (lr_TensionAverageComponent r t) = omap fst (lr_TensionAverageComponent s t)) /\
  (forall t, omap fst (lr_TensionHorizontalComponent r t) = omap fst (lr_TensionHorizontalComponent s t)) /\
  (forall q, omap (fun p => c3_answer (fst p) q) (lr_CatenaryReloaded r) =
             omap (fun p => c3_answer (fst p) q) (lr_CatenaryReloaded s)).

(** The same for line cable unloaders. *)
Definition pickLu_line (k : LuCall N) : option (option (Strung N)) := match k with LuSetLine l => Some l | _ => None end.
Definition pickLu_condition (k : LuCall N) : option Condition := match k with LuSetCondition c => Some c | _ => None end.
Definition pickLu_spacing (k : LuCall N) : option (Vector3d N) := match k with LuSetSpacing s => Some s | _ => None end.
Definition pickLu_temperature (k : LuCall N) : option N := match k with LuSetTemperature t => Some t | _ => None end.
Definition lu_fresh (l : option (Strung N)) (c : Condition) (s : Vector3d N) (t : N) : Unloader N :=
  lu_set_temperature (lu_set_spacing (lu_set_condition (lu_set_line Unloader_new l) c) s) t.
Definition lu_alike (env : Env N) (u v : Unloader N) : Prop :=
  omap fst (lu_Validate env u) = omap fst (lu_Validate env v) /\
  omap fst (lu_StretchStateCreep u) = omap fst (lu_StretchStateCreep v) /\
  omap fst (lu_StretchStateLoad u) = omap fst (lu_StretchStateLoad v) /\
  omap fst (lu_LengthUnloaded u) = omap fst (lu_LengthUnloaded v).

(** The horizontal tension of the line cable [line] strung to the constraint [c], at the
    weather case and the condition of its own constraint. *)
Definition tension_under (line : Strung N) (c : Constraint N) : outcome N :=
  let own := sr_constraint (lc_payload line) in
  omap fst (lr_TensionHorizontal (lr_fresh (Some (with_constraint line c)) (co_condition own) (co_weather own))).

(** The catenary of the line cable strung to the constraint [c] there. *)
Definition catenary_under (line : Strung N) (c : Constraint N) : outcome (Catenary3d N) :=
  let own := sr_constraint (lc_payload line) in
  omap fst (lr_CatenaryReloaded (lr_fresh (Some (with_constraint line c)) (co_condition own) (co_weather own))).

(** The question whose answer a limit type limits, for the types the sagger sets. *)
Definition limited (t : LimitType) : option (@C3Question N) :=
  match t with
  | LmHorizontal => Some Q3TensionHorizontal
  | LmConstant => Some Q3Constant
  | LmSupport => Some Q3TensionMax
  | _ => None
  end.

(** The line cable with another limit. *)
Definition with_limit (line : Strung N) (x : N) : Strung N :=
  let own := sr_constraint (lc_payload line) in
  with_constraint line (mkConstraint (co_weather own) (co_condition own) x (co_type own)).

(** The arguments of the last setters of a sagger, and a new sagger with them. *)
Definition pickSa_line (k : SaCall N) : option (option (Strung N)) := match k with SaSetLine l => Some l | _ => None end.
Definition pickSa_constraints (k : SaCall N) : option (option (list (Constraint N))) :=
  match k with SaSetConstraints c => Some c | _ => None end.
Definition sa_fresh (l : option (Strung N)) (cs : option (list (Constraint N))) : Sagger N :=
  sa_set_line (sa_set_constraints Sagger_new cs) l.

(** Two saggers answer alike. *)
Definition sa_alike (env : Env N) (s t : Sagger N) : Prop :=
  omap fst (sa_IndexConstraintControlling env s) = omap fst (sa_IndexConstraintControlling env t) /\
  omap fst (sa_LimitConstraint env s) = omap fst (sa_LimitConstraint env t) /\
  (forall i, omap fst (sa_CatenaryConstantActual env s i) = omap fst (sa_CatenaryConstantActual env t i)) /\
  (forall i, omap fst (sa_TensionHorizontalActual env s i) = omap fst (sa_TensionHorizontalActual env t i)) /\
  (forall i, omap fst (sa_TensionSupportActual env s i) = omap fst (sa_TensionSupportActual env t i)) /\
  (forall i, omap fst (sa_CapacityAllowable env s i) = omap fst (sa_CapacityAllowable env t i)).

(** The catenary of the line cable [line] at the weather case and the condition of [c]. *)
Definition catenary_at (line : Strung N) (c : Constraint N) : outcome (Catenary3d N) :=
  omap fst (lr_CatenaryReloaded (lr_fresh (Some line) (co_condition c) (co_weather c))).

(** The place [k] holds the first lowest number of a list. *)
Definition first_lowest (ts : list N) (k : nat) : Prop :=
  exists x, nth_error ts k = Some x /\
    forall k' x', nth_error ts k' = Some x' -> (x' <? x) = false /\ ((k' < k)%nat -> (x <? x') = true).

End Spec.
