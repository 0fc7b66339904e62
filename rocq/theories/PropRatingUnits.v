(** Ratings in both unit systems, in exact arithmetic. *)
From Coq Require Import ZArith Bool List Reals Lra.
From Verif Require Import Num NumFacts ModelBase ModelCable ModelThermal SpecThermal SpecHeat
  ProofReal ProofThermal ProofThermalReal ProofThermalCases ProofHeat ProofHeatUnits ProofHeatCases ProofRating PropStopwatchUnits.
Import ListNotations.
Open Scope R_scope.

(** C181: the same cable in the same weather, in feet and in metres (resistances per foot
    and per metre), carries the same steady current: its square differs by no more than 0.3 %
    of that of a cable without sun, and if the sun gives no more than half of the heat that
    is lost, the currents agree within 0.6 %. *)
Theorem rating_unit_systems : forall (bi bm : Cable RNum) (wi wm : ThermalRatingWeather RNum) (t ri rm : R),
  let ci := mkThermalRatingCable (Some bi) in let cm := mkThermalRatingCable (Some bm) in
  trc_Validate ci = true -> trc_Validate cm = true -> tw_Validate wi = true -> tw_Validate wm = true ->
  same_surface bi bm -> same_weather wi wm -> tw_temperature_air wi <= t <= 1000 ->
  trc_Resistance ci t = Ok ri -> trc_Resistance cm t = Ok rm -> ri = foot * rm -> 0 < rm ->
  let si := sc_fresh (N := RNum) (Some ci) t Imperial (Some wi) in let sm := sc_fresh (N := RNum) (Some cm) t Metric (Some wm) in
  exists (ii im : R) (hm : HeatState RNum), omap fst (sc_Current si) = Ok ii /\ omap fst (sc_Current sm) = Ok im /\
    omap fst (sc_StateHeatTransfer sm) = Ok hm /\
    let loss := - (ht_convection hm + ht_radiation hm) in
    0 <= loss /\ Rabs (ii * Rabs ii - im * Rabs im) <= 3 / 1000 * (loss / rm) /\
    (0 < loss -> ht_solar hm <= loss / 2 -> 0 < im /\ agree (6 / 1000) ii im).
Proof.
  intros bi bm wi wm t ri rm ci cm Ci Cm Vi Vm SS SW T Ri Rm RR P si sm. injection Ri as <-. injection Rm as <-.
  destruct (fresh_answers bi Imperial wi t Ci Vi ltac:(discriminate)) as (Ai & _).
  destruct (fresh_answers bm Metric wm t Cm Vm ltac:(discriminate)) as (Am & Hm).
  exists (amps bi t (sums bi Imperial wi t)), (amps bm t (sums bm Metric wm t)), (sums bm Metric wm t).
  split; [exact Ai|]. split; [exact Am|]. split; [exact Hm|]. cbv zeta.
  destruct (heat_signs (mkHeatSolver (wire bm) Metric (Some wm)) bm wm t (hs_valid bm Metric wm Cm Vm ltac:(discriminate)) eq_refl eq_refl
    ltac:(rewrite (sw_air _ _ SW); apply T)) as (cv & rd & E1 & E2 & S1 & S2 & _). injection E1 as <-. injection E2 as <-.
  assert (S1' : convection (N := RNum) Metric (cb_diameter bm) wm t <= 0) by exact S1.
  assert (S2' : radiation (N := RNum) Metric bm wm t <= 0) by exact S2. clear S1 S2.
  destruct (cable_valid bi Ci) as (D & _).
  assert (NC := near_convection (cb_diameter bi) wi wm t ltac:(lra) Vi SW T). rewrite <- (ss_diameter _ _ SS) in NC.
  assert (NR := radiation_units bi bm wi wm t SS SW). assert (NS := solar_units bi bm wi wm SS SW).
  assert (PI' : 0 < table_resistance (cb_resistances bi) t). { rewrite RR. apply Rmult_lt_0_compat; [unfold foot; lra|exact P]. }
  destruct (amps_square bi t (sums bi Imperial wi t) PI') as (Qi & Ni & Pi). destruct (amps_square bm t (sums bm Metric wm t) P) as (Qm & Nm & Pm).
  rewrite sums_resistance in Qi, Ni, Pi, Qm, Nm, Pm. rewrite RR in Qi.
  change (ht_convection (sums bm Metric wm t)) with (convection (N := RNum) Metric (cb_diameter bm) wm t).
  change (ht_radiation (sums bm Metric wm t)) with (radiation (N := RNum) Metric bm wm t).
  change (ht_solar (sums bm Metric wm t)) with (solar (N := RNum) bm wm).
  set (ii := amps bi t _) in *. set (im := amps bm t _) in *. set (r := table_resistance (cb_resistances bm) t) in *.
  set (x := convection (N := RNum) Imperial (cb_diameter bi) wi t) in *. set (y := radiation (N := RNum) Imperial bi wi t) in *. set (z := solar (N := RNum) bi wi) in *.
  set (x' := convection (N := RNum) Metric (cb_diameter bm) wm t) in *. set (y' := radiation (N := RNum) Metric bm wm t) in *. set (z' := solar (N := RNum) bm wm) in *.
  change (F RNum) with R in (type of ii), (type of im), (type of r), (type of x), (type of y), (type of z), (type of x'), (type of y'), (type of z').
  clearbody ii im r x y z x' y' z'. change (F RNum) with R in *. clear - P Qi Ni Pi Qm Nm Pm S1' S2' NC NR NS.
  assert (F0 : 0 < foot) by (unfold foot; lra).
  unfold agree in NC, NR. rewrite (Rabs_left1 (foot * x')) in NC by nra. rewrite (Rabs_left1 (foot * y')) in NR by nra.
  apply Rabs_both in NC, NR.
  assert (SQ : forall i q s, 0 < s -> i * i * s = Rabs q -> (i < 0 <-> q < 0) -> (0 < i <-> 0 < q) -> i * Rabs i * s = q).
  { intros i q s Hs A B C. unfold Rabs in A. destruct (Rcase_abs q) as [L|L].
    - apply B in L. rewrite Rabs_left by exact L. lra.
    - assert (i >= 0) by (apply Rnot_lt_ge; intros X; apply B in X; lra). rewrite Rabs_pos_eq by lra. lra. }
  assert (Xi := SQ ii _ (foot * r) ltac:(nra) Qi Ni Pi). assert (Xm := SQ im _ r P Qm Nm Pm). clear SQ.
  split; [lra|]. split.
  - apply Rmult_le_reg_r with (foot * r); [nra|].
    rewrite <- (Rabs_pos_eq (foot * r)) at 1 by nra. rewrite <- Rabs_mult.
    replace ((ii * Rabs ii - im * Rabs im) * (foot * r)) with (ii * Rabs ii * (foot * r) - foot * (im * Rabs im * r)) by ring.
    rewrite Xi, Xm. replace (3 / 1000 * (- (x' + y') / r) * (foot * r)) with (3 / 1000 * foot * - (x' + y')) by (field; lra).
    apply Rabs_le. rewrite NS. nra.
  - intros L0 L1. assert (QM : 0 < - (x' + y' + z')) by lra.
    assert (QI : Rabs (- (x + y + z) - foot * - (x' + y' + z')) <= 6 / 1000 * (foot * - (x' + y' + z'))).
    { apply Rabs_le. rewrite NS. assert (foot * - (x' + y') <= 2 * (foot * - (x' + y' + z'))) by nra. lra. }
    assert (QP : 0 < - (x + y + z)). { apply Rabs_both in QI. assert (0 < foot * - (x' + y' + z')) by (apply Rmult_lt_0_compat; lra). lra. }
    assert (I1 : 0 < im) by (apply Pm; exact QM). assert (I2 : 0 < ii) by (apply Pi; exact QP). split; [exact I1|].
    unfold agree. rewrite (Rabs_pos_eq im) by lra.
    apply (near_root im ii (foot * - (x' + y' + z')) (- (x + y + z))); try lra; try assumption; try (apply Rmult_lt_0_compat; lra).
    rewrite Rabs_pos_eq in Qi by lra. rewrite Rabs_pos_eq in Qm by lra. rewrite <- Qi, <- Qm. ring.
Qed.
Print Assumptions rating_unit_systems.

(** A cable with resistance 1 per foot in a sunny breeze at 75 degrees. *)
Definition base2_m : Cable RNum :=
  mkCable (N := RNum) (1 : R) (1 : R) part part (foot : R) (1 / 2 : R) [rpt 0 (1 / foot); rpt 100 (1 / foot)] (1 : R) (20 : R) (1 : R).
Lemma base2_m_valid : trc_Validate (mkThermalRatingCable (Some base2_m)) = true.
Proof. unfold trc_Validate, Cable_Validate, component_valid, CableComponent_Validate, base2_m, part, rpt, foot. cbn. rn. rdec. reflexivity. Qed.
Lemma base2_m_resistance : forall t : R, table_resistance (N := RNum) (cb_resistances base2_m) t = 1 / foot.
Proof.
  intros t. unfold base2_m. cbn [cb_resistances]. rewrite resistance_first.
  - cbn [interpolated]. unfold line_at, rpt, foot. cbn [rp_resistance rp_temperature]. rfield.
  - cbn. split; [lra|exact I].
  - left. reflexivity.
Qed.
Example rating_unit_systems_case :
  trc_Validate (mkThermalRatingCable (Some base2)) = true /\ trc_Validate (mkThermalRatingCable (Some base2_m)) = true /\
  tw_Validate (breeze 45 10) = true /\ tw_Validate (breeze_m 45 10) = true /\ same_surface base2 base2_m /\ same_weather (breeze 45 10) (breeze_m 45 10) /\
  trc_Resistance (mkThermalRatingCable (Some base2)) (75 : R) = Ok (foot * (1 / foot) : F RNum) /\
  trc_Resistance (mkThermalRatingCable (Some base2_m)) (75 : R) = Ok (1 / foot : F RNum).
Proof.
  split; [exact base2_valid|]. split; [exact base2_m_valid|]. split; [apply breeze_valid; lra|]. split; [apply breeze_m_valid; lra|].
  split; [constructor; cbn; lra|]. split; [apply same_breeze|]. unfold trc_Resistance. cbn [deref obind trc_base].
  split.
  - f_equal. transitivity (1 : R); [exact (base2_resistance 75)|]. unfold foot. req. field.
  - f_equal. exact (base2_m_resistance 75).
Qed.
