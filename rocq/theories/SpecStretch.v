(** Specification of the stretch states of a line cable: the average tensions of the
    constraint catenary reloaded by new objects to the stretch cases. *)
From Coq Require Import ZArith Bool List.
From Verif Require Import Num ModelBase ModelLine ModelCable ModelCatenary ModelLoad ModelThermal ModelElongation ModelReload ModelSagtension.
Import ListNotations.
Open Scope num_scope.

Section Spec.
Context {N : Num}.

(** New models of the cable of a line: in the constraint case, stretched by [ss], and in
    the two stretch cases, without stretch. *)
Definition bench (line : Strung N) (ss : StretchState N) : outcome (Models N) :=
  let s := lc_payload line in
  let cable := sg_set_base (sr_cable s) in
  do w0 <- deref (co_weather (sr_constraint s));
  do w1 <- deref (sr_creep s);
  do w2 <- deref (sr_load s);
  do m0 <- set_model cable ElongModel_new (mkCableState (wl_temperature_cable w0) PTLoadStrain) ss;
  do m1 <- set_model cable ElongModel_new (mkCableState (wl_temperature_cable w1) PTCreep)
             (mkStretchState (wl_temperature_cable w1) PTCreep #0);
  do m2 <- set_model cable ElongModel_new (mkCableState (wl_temperature_cable w2) PTLoadStrain)
             (mkStretchState (wl_temperature_cable w2) PTLoadStrain #0);
  Ok (fun a => if (a =? 0)%Z then m0 else if (a =? 1)%Z then m1 else if (a =? 2)%Z then m2 else ElongModel_new).

(** The average tension of the constraint catenary of a line reloaded by a new reloader from
    the constraint model, stretched by [ss], to the model [to] and the unit load of [weather]. *)
Definition carried (line : Strung N) (ss : StretchState N) (weather : option (WeatherLoadCase N)) (to : Z) : outcome N :=
  do k <- CatenaryRulingSpan (lc_payload line);
  do w <- unit_load (lc_payload line) weather;
  do mem <- bench line ss;
  do (c, _) <- rl_CatenaryReloaded (fun _ => c3_after_Validate k) (fun _ => w) mem
                 (mkCatReloader (Some 0%Z) Catenary3d_default false (Some 0%Z) (Some to) Strainer_new (Some 0%Z));
  Ok (c3_TensionAverage c 100).
Definition carried_creep (line : Strung N) (ss : StretchState N) : outcome N := carried line ss (sr_creep (lc_payload line)) 1.
Definition carried_load (line : Strung N) (ss : StretchState N) : outcome N := carried line ss (sr_load (lc_payload line)) 2.

(** A stretch state of a weather case. *)
Definition of_case (weather : option (WeatherLoadCase N)) (type : PolynomialType) (ss : StretchState N) : Prop :=
  exists w, weather = Some w /\ ss_temperature ss = wl_temperature_cable w /\ ss_type ss = type.

(** Two tensions that differ by no more than 0.01. *)
Definition matches (t x : N) : Prop := (flit 1 (-2) <? fabs (t - x - #0)) = false.

(** The stretch states of a line: the cable of the constraint has the stretch of the
    condition of the constraint, and the tensions carried at the stretch cases are the loads. *)
Definition stretches (line : Strung N) (creep load : StretchState N) : Prop :=
  of_case (sr_creep (lc_payload line)) PTCreep creep /\ of_case (sr_load (lc_payload line)) PTLoadStrain load /\
  match co_condition (sr_constraint (lc_payload line)) with
  | CdInitial =>
      carried_creep line (mkStretchState #0 PTLoadStrain #0) = Ok (ss_load creep) /\
      carried_load line (mkStretchState #0 PTLoadStrain #0) = Ok (ss_load load)
  | CdCreep => (exists t, carried_creep line creep = Ok t /\ matches t (ss_load creep)) /\ carried_load line creep = Ok (ss_load load)
  | CdLoad => carried_creep line load = Ok (ss_load creep) /\ (exists t, carried_load line load = Ok t /\ matches t (ss_load load))
  | CdNull => False
  end.

End Spec.
