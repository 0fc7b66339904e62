(** C196 and C197: temperature histories of two transient solvers. *)
From Coq Require Import ZArith Bool List Reals Lra Lia.
From Verif Require Import Num NumFacts ModelBase ModelCable ModelThermal SpecThermal
  ProofReal ProofThermalReal ProofThermal ProofThermalCases ProofTransientLaws.
Import ListNotations.
Open Scope R_scope.

(** C196: a longer duration only adds points, in any arithmetic and after any calls. *)
Theorem transient_longer_extends : forall (N : Num) ks ks' (s s' : TransientSolver N) l l',
  ts_run TransientSolver_default ks = Ok s -> ts_run TransientSolver_default ks' = Ok s' ->
  ts_cable s' = ts_cable s -> ts_current_steady s' = ts_current_steady s -> ts_current_step s' = ts_current_step s ->
  ts_units s' = ts_units s -> ts_weather s' = ts_weather s -> (ts_duration s <= ts_duration s')%Z ->
  omap fst (ts_PointsTemperature s) = Ok (Some l) -> omap fst (ts_PointsTemperature s') = Ok (Some l') ->
  exists more, l' = l ++ more.
Proof. exact @longer_history. Qed.
Print Assumptions transient_longer_extends.

(** C197: a step current of greater magnitude leaves the first point alone and makes the
    second one hotter. *)
Theorem transient_step_heats : forall ks ks' (s s' : TransientSolver RNum) b (p0 p1 p0' p1' : TemperaturePoint RNum) rest rest' (r : R),
  ts_run TransientSolver_default ks = Ok s -> ts_run TransientSolver_default ks' = Ok s' ->
  ts_cable s = Some (mkThermalRatingCable (Some b)) ->
  ts_cable s' = ts_cable s -> ts_current_steady s' = ts_current_steady s ->
  ts_units s' = ts_units s -> ts_weather s' = ts_weather s ->
  omap fst (ts_PointsTemperature s) = Ok (Some (p0 :: p1 :: rest)) ->
  omap fst (ts_PointsTemperature s') = Ok (Some (p0' :: p1' :: rest')) ->
  0 < cc_capacity_heat (cb_core b) + cc_capacity_heat (cb_shell b) ->
  trc_Resistance (mkThermalRatingCable (Some b)) (tp_temperature p0) = Ok r -> 0 < r ->
  Rabs (ts_current_step s) < Rabs (ts_current_step s') ->
  (tp_temperature p0' : R) = tp_temperature p0 /\ (tp_temperature p1 : R) < tp_temperature p1'.
Proof. exact step_heats. Qed.
Print Assumptions transient_step_heats.

(** Histories of one and of seven seconds, with two step currents. *)
Example transient_laws_case :
  (exists p q rest, omap fst (ts_PointsTemperature (case_solver i0 1)) = Ok (Some (p :: q :: rest)) /\ (tp_temperature p : R) = 1280 / 127) /\
  (exists p q rest, omap fst (ts_PointsTemperature (case_solver i0 7)) = Ok (Some (p :: q :: rest)) /\ (tp_temperature p : R) = 1280 / 127) /\
  (exists p q rest, omap fst (ts_PointsTemperature (case_solver (2 * i0) 7)) = Ok (Some (p :: q :: rest)) /\ (tp_temperature p : R) = 1280 / 127) /\
  (forall d : Z, (1 <= d)%Z -> ts_run TransientSolver_default (case_calls i0 d) = Ok (case_solver i0 d)) /\
  trc_Resistance (mkThermalRatingCable (Some base2)) (1280 / 127 : F RNum) = Ok (1 : F RNum) /\
  0 < cc_capacity_heat (cb_core base2) + cc_capacity_heat (cb_shell base2) /\ Rabs i0 < Rabs (2 * i0).
Proof.
  split; [exact (proj2 (case_history i0 1 ltac:(lia)))|]. split; [exact (proj2 (case_history i0 7 ltac:(lia)))|].
  split; [exact (proj2 (case_history (2 * i0) 7 ltac:(lia)))|].
  split; [intros d H; exact (proj1 (case_history i0 d H))|].
  split; [unfold trc_Resistance; cbn [deref obind trc_base]; f_equal; apply base2_resistance|].
  split; [cbn; lra|]. assert (P := i0_pos). rewrite !Rabs_pos_eq by lra. lra.
Qed.
