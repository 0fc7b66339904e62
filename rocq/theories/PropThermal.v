(** Theorems about the thermal rating classes. *)
From Coq Require Import ZArith Bool List Reals Lra.
From Verif Require Import Num ModelBase ModelCable ModelThermal SpecCatenary SpecSolver SpecThermal
  ProofThermal ProofThermalTemp ProofThermalReal ProofThermalCases ProofTransientStart.
Import ListNotations.
Open Scope R_scope.

(** C42, partial: the resistance is always one on a line through two neighbours of the
    table, the first two or the last two; it is the interpolated one if the table has two
    points or the temperature lies inside the first segment. *)
Theorem resistance_interpolates_partial : forall (b : Cable RNum) p q rest (t : R), trc_Validate (mkThermalRatingCable (Some b)) = true ->
  cb_resistances b = p :: q :: rest ->
  trc_Resistance (mkThermalRatingCable (Some b)) t = Ok (
    if Rle_dec t (rp_temperature p) then line_at (fst (last_segment p q rest)) (snd (last_segment p q rest)) t
    else if Req_EM_T t (rp_temperature q) then line_at (fst (last_segment p q rest)) (snd (last_segment p q rest)) t
    else line_at p q t) /\
  (rest = [] \/ rp_temperature p < t < rp_temperature q ->
   trc_Resistance (mkThermalRatingCable (Some b)) t = Ok (interpolated p q rest t)).
Proof. exact resistance_api. Qed.
Print Assumptions resistance_interpolates_partial.

Example resistance_interpolates_case : trc_Validate (mkThermalRatingCable (Some base3)) = true /\
  cb_resistances base3 = [rpt 25 1; rpt 50 2; rpt 75 5] /\
  trc_Resistance (mkThermalRatingCable (Some base3)) (0 : R) = Ok (-4 : R).
Proof.
  split; [exact base3_valid|]. split; [reflexivity|].
  exact (f_equal (@Ok R) base3_low).
Qed.

(** C42: a tabulated value is not returned. *)
Theorem resistance_interpolates_refuted : exists (b : Cable RNum) p q r (t : R), trc_Validate (mkThermalRatingCable (Some b)) = true /\
  cb_resistances b = [p; q; r] /\ t = rp_temperature r /\
  exists v : R, trc_Resistance (mkThermalRatingCable (Some b)) t = Ok v /\ v <> interpolated p q [r] t /\ v <> rp_resistance r.
Proof. exact resistance_wrong. Qed.
Print Assumptions resistance_interpolates_refuted.

(** C43, partial: after any history the heat terms that are reported with a current sum to
    zero without storage; and if the resistance at the cable temperature is positive, the
    current makes the resistive heat and has its sign. *)
Theorem steady_current_balance_partial : forall ks (s : CurrentSolver RNum) (i r : R) st, sc_run CurrentSolver_default ks = Ok s ->
  omap fst (sc_Current s) = Ok i -> omap fst (sc_StateHeatTransfer s) = Ok st -> i <> -999999 ->
  (do c <- deref (sc_cable s); trc_Resistance c (sc_temperature s)) = Ok r -> 0 < r ->
  ht_convection st + ht_radiation st + ht_resistance st + ht_solar st + ht_storage st = 0 /\ (ht_storage st : R) = 0 /\
  i * i * r = Rabs (ht_resistance st) /\ (i < 0 <-> ht_resistance st < 0) /\ (0 < i <-> 0 < ht_resistance st).
Proof. exact current_balance. Qed.
Print Assumptions steady_current_balance_partial.

Example steady_current_balance_case : exists i : R,
  omap fst (sc_Current (sc_fresh (N := RNum) (wire base2) (0 : R) Metric (Some (calm 4)))) = Ok i /\ i * i = 4 /\ i <= 0.
Proof. exact (sunny_current 4 ltac:(lra)). Qed.

(** C43: Validate accepts the inputs, the table is positive, and no current at all makes
    the resistive heat. *)
Theorem steady_current_balance_refuted : exists ks (s : CurrentSolver RNum) (i r : R) st, sc_run CurrentSolver_default ks = Ok s /\
  omap fst (sc_Validate s) = Ok true /\ omap fst (sc_Current s) = Ok i /\ omap fst (sc_StateHeatTransfer s) = Ok st /\
  (do c <- deref (sc_cable s); trc_Resistance c (sc_temperature s)) = Ok r /\
  (forall b, sc_cable s = wire b -> Forall (fun p : ResistancePoint RNum => 0 < rp_resistance p) (cb_resistances b)) /\
  forall j : R, j * j * r <> Rabs (ht_resistance st).
Proof. exact current_balance_refuted. Qed.
Print Assumptions steady_current_balance_refuted.

(** C44, partial, in any arithmetic: the steady current solver answers like a new one with
    the last inputs, unless a unit system or weather was set after an answer. *)
Theorem steady_current_history_partial : forall (N : Num) ks, exists s, sc_run (@CurrentSolver_default N) ks = Ok s /\
  (stale false false (map current_event ks) = false -> sc_same s (sc_renew s)) /\
  sc_cable s = last_of pickC_cable ks None /\ sc_temperature s = last_of pickC_temperature ks ferr /\
  sc_units s = last_of pickC_units ks USNull /\ sc_weather s = last_of pickC_weather ks None.
Proof. exact @sc_history. Qed.
Print Assumptions steady_current_history_partial.

(** C44, partial, in any arithmetic: the same of the steady temperature solver. *)
Theorem steady_temperature_history_partial : forall (N : Num) ks s, st_run (@TemperatureSolver_default N) ks = Ok s ->
  (stale false false (map temperature_event ks) = false -> st_same s (st_renew s)) /\
  st_cable s = last_of pickT_cable ks None /\ st_current s = last_of pickT_current ks ferr /\
  st_units s = last_of pickT_units ks USNull /\ st_weather s = last_of pickT_weather ks None.
Proof. exact @st_history. Qed.
Print Assumptions steady_temperature_history_partial.

Example steady_history_case : forall (N : Num) c (t t' : N) u w w',
  stale false false (map current_event [CcSetCable c; CcSetWeather w; CcCurrent; CcSetTemperature t; CcState; CcSetWeather w';
    CcValidate; CcCurrent; CcSetUnits u; CcSetTemperature t']) = false.
Proof. reflexivity. Qed.

(** C44: a weather set after an answer is not seen. *)
Theorem steady_current_history_refuted : exists (c : option (ThermalRatingCable RNum)) (t : R) u w w' (i i' : R) s,
  sc_run (N := RNum) CurrentSolver_default [CcSetCable c; CcSetTemperature (N := RNum) t; CcSetUnits u; CcSetWeather w; CcCurrent; CcSetWeather w'] = Ok s /\
  omap fst (sc_Current s) = Ok i /\ omap fst (sc_Current (sc_renew s)) = Ok i' /\ i <> i'.
Proof. exact current_stale. Qed.
Print Assumptions steady_current_history_refuted.

Theorem steady_temperature_history_refuted : exists (c : option (ThermalRatingCable RNum)) (i : R) u w w' (t t' : R) s,
  st_run (N := RNum) TemperatureSolver_default
    [TcSetCable c; TcSetCurrent (N := RNum) i; TcSetUnits u; TcSetWeather (Some w); TcTemperature; TcSetWeather (Some w')] = Ok s /\
  tw_Validate w' = true /\
  omap fst (st_TemperatureCable s) = Ok t /\ omap fst (st_TemperatureCable (st_renew s)) = Ok t' /\ t <> t'.
Proof. exact temperature_stale. Qed.
Print Assumptions steady_temperature_history_refuted.

(** C45: after any history, the temperature history has the points 0 .. duration; it
    starts at the answer of a new steady solver and each point follows from the one
    before; there is none if the cable, the units or the weather are invalid. *)
Theorem transient_temperature_history : forall ks, exists s, ts_run (@TransientSolver_default RNum) ks = Ok s /\
  let h := mkHeatSolver (ts_cable s) (ts_units s) (ts_weather s) in
  if hs_Validate h then
    exists l, omap fst (ts_PointsTemperature s) = Ok (Some l) /\ length l = Z.to_nat (ts_duration s + 1) /\
      (forall i p, nth_error l i = Some p -> tp_time p = Z.of_nat i) /\
      (forall p, nth_error l 0 = Some p ->
         omap fst (st_TemperatureCable (st_fresh (ts_cable s) (ts_current_steady s) (ts_units s) (ts_weather s))) = Ok (tp_temperature p)) /\
      (forall b i p q, ts_cable s = Some (mkThermalRatingCable (Some b)) -> nth_error l i = Some p -> nth_error l (S i) = Some q ->
         heats_up b h (ts_current_step s) (tp_temperature p) (tp_temperature q))
  else omap fst (ts_PointsTemperature s) = Ok None.
Proof. exact transient_history. Qed.
Print Assumptions transient_temperature_history.

(** C45, in any arithmetic: the transient solver answers like a new one with the last
    inputs. *)
Theorem transient_inputs : forall (N : Num) ks, exists s, ts_run (@TransientSolver_default N) ks = Ok s /\ ts_same s (ts_renew s) /\
  ts_cable s = last_of pickR_cable ks None /\ ts_current_steady s = last_of pickR_steady ks ferr /\
  ts_current_step s = last_of pickR_step ks ferr /\ ts_duration s = last_of pickR_duration ks (-9999)%Z /\
  ts_units s = last_of pickR_units ks USNull /\ ts_weather s = last_of pickR_weather ks None.
Proof. exact @ts_history. Qed.
Print Assumptions transient_inputs.

Example transient_temperature_case : exists p q rest, omap fst (ts_PointsTemperature
    (ts_fresh (N := RNum) (wire base2) i0 i0 7 Metric (Some (calm sun0)))) = Ok (Some (p :: q :: rest)) /\
  length rest = 6%nat /\ (tp_temperature p : R) = 1280 / 127.
Proof. exact transient_case. Qed.

(** C46 *)
Theorem heat_transfer_signs : forall (h : HeatSolver RNum) (b : Cable RNum) (w : ThermalRatingWeather RNum) (t : R), hs_Validate h = true ->
  hs_cable h = Some (mkThermalRatingCable (Some b)) -> hs_weather h = Some w -> tw_temperature_air w <= t ->
  exists cv rd : R, hs_HeatConvection h t = Ok cv /\ hs_HeatRadiation h t = Ok rd /\ cv <= 0 /\ rd <= 0 /\
    (t = tw_temperature_air w -> cv = 0 /\ rd = 0) /\
    (tw_temperature_air w < t -> cv < 0) /\
    (forall t' : R, t < t' -> 0 < cb_emissivity b -> exists rd' : R, hs_HeatRadiation h t' = Ok rd' /\ rd' < rd).
Proof. exact heat_signs. Qed.
Print Assumptions heat_transfer_signs.

Example heat_transfer_signs_case : hs_Validate (mkHeatSolver (wire base3) Imperial (Some (calm 5))) = true /\ 0 < cb_emissivity base3.
Proof.
  split; [|cbn; lra]. apply hs_valid; [exact base3_valid|apply calm_valid; lra|discriminate].
Qed.

(** C70: a temperature that is reported lies on a secant of the steady currents within 0.1
    degrees of a point of it, and the state is the one of the steady current solver. *)
Theorem steady_temperature_answer : forall ks (s : TemperatureSolver RNum) w (t : R) st, st_run TemperatureSolver_default ks = Ok s ->
  stale false false (map temperature_event ks) = false -> st_weather s = Some w ->
  omap fst (st_TemperatureCable s) = Ok t -> omap fst (st_StateHeatTransfer s) = Ok st -> t <> -999999 ->
  omap fst (sc_StateHeatTransfer (sc_fresh (st_cable s) t (st_units s) (Some w))) = Ok st /\
  exists f : R -> R, (forall x : R, omap fst (sc_Current (sc_fresh (st_cable s) x (st_units s) (Some w))) = Ok (f x)) /\
    secant_close f (st_current s) (1 / 10) t.
Proof. exact temperature_answer. Qed.
Print Assumptions steady_temperature_answer.

Example steady_temperature_answer_case : exists st,
  solve_temperature (N := RNum) (wire base2) i0 Metric (Some (calm sun0)) = Ok (true, (st, (1280 / 127 : R))) /\ 0 < i0.
Proof. destruct i0_sun as (st & E). exists st. exact (conj E i0_pos). Qed.

(** C71: the current that keeps the cable at the temperature of the air is not found. *)
Theorem steady_temperature_found_refuted : exists c u w (i : R), let s := st_fresh (N := RNum) c i u (Some w) in
  omap fst (sc_Validate (sc_fresh c (tw_temperature_air w) u (Some w))) = Ok true /\
  omap fst (sc_Current (sc_fresh c (tw_temperature_air w) u (Some w))) = Ok i /\
  omap fst (st_TemperatureCable s) = Ok (-999999 : R) /\ omap fst (st_Validate s) = Ok false.
Proof. exact temperature_missed. Qed.
Print Assumptions steady_temperature_found_refuted.

(** C72, partial, in any arithmetic: no history dereferences a null pointer if a weather is
    set whenever the solver is queried or validated.  (For the current and the transient
    solver no condition is needed: [steady_current_history_partial], [transient_inputs].) *)
Theorem steady_temperature_safe_partial : forall (N : Num) ks, weather_first None ks ->
  exists s, st_run (@TemperatureSolver_default N) ks = Ok s.
Proof. exact (fun N ks H => st_run_some ks (@TemperatureSolver_default N) H). Qed.
Print Assumptions steady_temperature_safe_partial.

Example steady_temperature_safe_case : forall (N : Num) w i,
  @weather_first N None [TcSetWeather (Some w); TcTemperature; TcSetCurrent i; TcValidate; TcSetWeather None; TcSetUnits Metric].
Proof. intros N w i. cbn. repeat split; try discriminate; intros [H|H]; discriminate H. Qed.

(** C72: Validate on a new solver dereferences the null weather. *)
Theorem steady_temperature_safe_refuted : forall N : Num, st_run (@TemperatureSolver_default N) [TcValidate] = UB.
Proof. reflexivity. Qed.
Print Assumptions steady_temperature_safe_refuted.

(** C73: the history of a transient solver that validates starts at -999999. *)
Theorem transient_starts_solved_refuted : exists ks (s : TransientSolver RNum) p rest, ts_run TransientSolver_default ks = Ok s /\
  omap fst (ts_Validate s) = Ok true /\ omap fst (ts_PointsTemperature s) = Ok (Some (p :: rest)) /\
  (tp_temperature p : R) = -999999.
Proof. exact transient_unsolved. Qed.
Print Assumptions transient_starts_solved_refuted.

(** C73, the part that holds: the first point is -999999 or a solution of the steady solver,
    on a secant of the steady currents within 0.1 degrees of a point of it. *)
Theorem transient_starts_solved_partial : forall ks (s : TransientSolver RNum) w p rest, ts_run TransientSolver_default ks = Ok s ->
  ts_weather s = Some w -> omap fst (ts_PointsTemperature s) = Ok (Some (p :: rest)) ->
  (tp_temperature p : R) = -999999 \/
  exists f : R -> R, (forall x : R, omap fst (sc_Current (sc_fresh (ts_cable s) x (ts_units s) (Some w))) = Ok (f x)) /\
    secant_close f (ts_current_steady s) (1 / 10) (tp_temperature p).
Proof. exact transient_start. Qed.
Print Assumptions transient_starts_solved_partial.

Example transient_starts_solved_case : exists p q rest, omap fst (ts_PointsTemperature
    (ts_fresh (N := RNum) (wire base2) i0 i0 7 Metric (Some (calm sun0)))) = Ok (Some (p :: q :: rest)) /\
  (tp_temperature p : R) <> -999999.
Proof. destruct transient_case as (p & q & rest & E & _ & T). exists p, q, rest. split; [exact E|]. rewrite T. lra. Qed.
