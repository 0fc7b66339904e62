(** The first point of a temperature history. *)
From Coq Require Import ZArith Bool List Reals Lra Lia.
From Verif Require Import Num NumFacts ModelBase ModelCable ProofReal ModelThermal SpecThermal SpecSolver ProofThermal ProofThermalTemp ProofThermalCases.
Import ListNotations.
Open Scope R_scope.

Lemma transient_start : forall ks (s : TransientSolver RNum) w p rest, ts_run TransientSolver_default ks = Ok s ->
  ts_weather s = Some w -> omap fst (ts_PointsTemperature s) = Ok (Some (p :: rest)) ->
  (tp_temperature p : R) = -999999 \/
  exists f : R -> R, (forall x : R, omap fst (sc_Current (sc_fresh (ts_cable s) x (ts_units s) (Some w))) = Ok (f x)) /\
    secant_close f (ts_current_steady s) (1 / 10) (tp_temperature p).
Proof.
  intros ks s w p rest H W P. destruct (transient_history ks) as (s1 & H1 & T). rewrite H in H1. injection H1 as <-.
  cbv zeta in T. destruct (hs_Validate _); [|rewrite P in T; discriminate T].
  destruct T as (l & L & _ & _ & T & _). rewrite P in L. injection L as <-. specialize (T p eq_refl). rewrite W in T.
  destruct (Req_dec (tp_temperature p) (-999999)) as [E|E]; [left; exact E|right].
  set (q := [TcSetCable (ts_cable s); TcSetCurrent (N := RNum) (ts_current_steady s); TcSetUnits (ts_units s); TcSetWeather (Some w)]).
  set (f := st_fresh (N := RNum) (ts_cable s) (ts_current_steady s) (ts_units s) (Some w)) in *.
  assert (Rn : st_run TemperatureSolver_default q = Ok f) by reflexivity.
  destruct (solve_temperature_ok (ts_cable s) (ts_current_steady s) (ts_units s) w) as (b & st' & t' & S).
  destruct (st_fresh_answer _ _ _ _ _ _ _ S) as (s' & _ & B & _).
  assert (St : omap fst (st_StateHeatTransfer f) = Ok (if b then st' else HeatState_default)) by (unfold f; rewrite B; reflexivity).
  destruct (temperature_answer q f w _ _ Rn eq_refl eq_refl T St E) as (_ & g & G). exists g. exact G.
Qed.
