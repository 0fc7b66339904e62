(** Concrete cases and the statements of the thermal rating properties. *)
From Coq Require Import ZArith Bool List Reals Lra Lia.
From Verif Require Import Num NumFacts ModelBase ModelCable ModelThermal ModelSolver SpecCatenary SpecSolver SpecThermal
  ProofReal ProofVector ProofSolverReal ProofThermal ProofThermalTemp ProofThermalReal.
Import ListNotations.
Open Scope R_scope.

(** ** A cable, two weathers *)
Definition part : CableComponent RNum :=
  mkCableComponent (N := RNum) (500 : R) (0 : R) [] [] (0 : R) (0 : R) (0 : R) (0 : R) (1 : R) (1 : R).
Definition rpt (t r : R) : ResistancePoint RNum := mkResistancePoint (N := RNum) r t.
Definition cable_of (table : list (ResistancePoint RNum)) : Cable RNum :=
  mkCable (N := RNum) (1 : R) (1 : R) part part (1 : R) (1 / 2 : R) table (1 : R) (20 : R) (1 : R).
Definition base2 : Cable RNum := cable_of [rpt 0 1; rpt 100 1].
Definition base3 : Cable RNum := cable_of [rpt 25 1; rpt 50 2; rpt 75 5].
Definition wire (b : Cable RNum) : option (ThermalRatingCable RNum) := Some (mkThermalRatingCable (Some b)).
(** No wind, air temperature 0, at sea level. *)
Definition calm (sun : R) : ThermalRatingWeather RNum :=
  mkThermalRatingWeather (N := RNum) (90 : R) (0 : R) sun (0 : R) (0 : R).

Lemma base2_valid : trc_Validate (mkThermalRatingCable (Some base2)) = true.
Proof. unfold trc_Validate, Cable_Validate, component_valid, CableComponent_Validate, base2, cable_of, part, rpt. cbn. rn. rdec. reflexivity. Qed.

Lemma base3_valid : trc_Validate (mkThermalRatingCable (Some base3)) = true.
Proof. unfold trc_Validate, Cable_Validate, component_valid, CableComponent_Validate, base3, cable_of, part, rpt. cbn. rn. rdec. reflexivity. Qed.

Lemma calm_valid : forall sun, 0 <= sun -> tw_Validate (calm sun) = true.
Proof. intros sun H. unfold tw_Validate, calm. cbn. rn. rdec. reflexivity. Qed.

Lemma base2_resistance : forall t : R, table_resistance (N := RNum) (cb_resistances base2) t = 1.
Proof.
  intros t. unfold base2, cable_of. cbn [cb_resistances]. rewrite resistance_first.
  - cbn [interpolated]. unfold line_at, rpt. cbn [rp_resistance rp_temperature]. rfield.
  - cbn. split; [lra|exact I].
  - left. reflexivity.
Qed.

Lemma base3_top : table_resistance (N := RNum) (cb_resistances base3) (75 : R) = 3.
Proof.
  unfold base3, cable_of. cbn [cb_resistances]. rewrite resistance_used by (cbn; lra).
  unfold line_at, rpt. cbn [rp_resistance rp_temperature]. destruct Rle_dec; [lra|]. destruct Req_EM_T; [lra|]. rfield.
Qed.

Lemma base3_low : table_resistance (N := RNum) (cb_resistances base3) (0 : R) = -4.
Proof.
  unfold base3, cable_of. cbn [cb_resistances]. rewrite resistance_used by (cbn; lra).
  unfold line_at, rpt. cbn [rp_resistance rp_temperature last_segment fst snd]. destruct Rle_dec; [|lra]. rfield.
Qed.

(** ** C42 *)
Theorem resistance_api : forall (b : Cable RNum) p q rest (t : R), trc_Validate (mkThermalRatingCable (Some b)) = true ->
  cb_resistances b = p :: q :: rest ->
  trc_Resistance (mkThermalRatingCable (Some b)) t = Ok (
    if Rle_dec t (rp_temperature p) then line_at (fst (last_segment p q rest)) (snd (last_segment p q rest)) t
    else if Req_EM_T t (rp_temperature q) then line_at (fst (last_segment p q rest)) (snd (last_segment p q rest)) t
    else line_at p q t) /\
  (rest = [] \/ rp_temperature p < t < rp_temperature q ->
   trc_Resistance (mkThermalRatingCable (Some b)) t = Ok (interpolated p q rest t)).
Proof.
  intros b p q rest t V E. destruct (cable_valid b V) as (_ & _ & _ & _ & _ & _ & A). rewrite E in A.
  unfold trc_Resistance. cbn [trc_base deref obind]. rewrite E. split.
  - f_equal. apply resistance_used, A.
  - intros H. f_equal. apply resistance_first; assumption.
Qed.

Theorem resistance_wrong : exists (b : Cable RNum) p q r (t : R), trc_Validate (mkThermalRatingCable (Some b)) = true /\
  cb_resistances b = [p; q; r] /\ t = rp_temperature r /\
  exists v : R, trc_Resistance (mkThermalRatingCable (Some b)) t = Ok v /\ v <> interpolated p q [r] t /\ v <> rp_resistance r.
Proof.
  exists base3, (rpt 25 1), (rpt 50 2), (rpt 75 5), 75. split; [exact base3_valid|]. split; [reflexivity|]. split; [reflexivity|].
  exists 3. split; [|split].
  - unfold trc_Resistance. cbn [trc_base deref obind]. f_equal. exact base3_top.
  - cbn [interpolated]. unfold line_at, rpt. cbn [rp_resistance rp_temperature]. destruct Rle_dec; lra.
  - cbn. lra.
Qed.

(** ** C46 *)
Theorem heat_signs : forall (h : HeatSolver RNum) (b : Cable RNum) (w : ThermalRatingWeather RNum) (t : R), hs_Validate h = true ->
  hs_cable h = Some (mkThermalRatingCable (Some b)) -> hs_weather h = Some w -> tw_temperature_air w <= t ->
  exists cv rd : R, hs_HeatConvection h t = Ok cv /\ hs_HeatRadiation h t = Ok rd /\ cv <= 0 /\ rd <= 0 /\
    (t = tw_temperature_air w -> cv = 0 /\ rd = 0) /\
    (tw_temperature_air w < t -> cv < 0) /\
    (forall t' : R, t < t' -> 0 < cb_emissivity b -> exists rd' : R, hs_HeatRadiation h t' = Ok rd' /\ rd' < rd).
Proof.
  intros h b w t V E1 E2 T. destruct (hs_Validate_inv _ V) as (b' & w' & F1 & F2 & U & VC & VW).
  rewrite E1 in F1. rewrite E2 in F2. injection F1 as <-. injection F2 as <-.
  destruct (cable_valid b VC) as (D & _ & Em & _). destruct (weather_valid w VW) as (_ & _ & _ & _ & Air).
  exists (convection (N := RNum) (hs_units h) (cb_diameter b) w t), (radiation (N := RNum) (hs_units h) b w t).
  unfold hs_HeatConvection, hs_HeatRadiation, base_of. rewrite E1, E2. cbn [deref obind trc_base].
  split; [destruct (hs_units h); [congruence|reflexivity..]|]. split; [reflexivity|].
  split; [apply convection_sign, U|]. split; [apply radiation_sign; try assumption; lra|].
  split; [intros ->; split; [apply convection_air, U|apply radiation_air, U]|].
  split; [intros L; apply convection_strict; try assumption; lra|].
  intros t' L Ep. eexists. split; [reflexivity|]. apply radiation_decreases; try assumption; lra.
Qed.

Lemma ferr_R : @ferr RNum = (-999999 : R).
Proof. unfold ferr. rn. simpl. lra. Qed.

(** ** C43 *)
Theorem current_balance : forall ks (s : CurrentSolver RNum) (i r : R) st, sc_run CurrentSolver_default ks = Ok s ->
  omap fst (sc_Current s) = Ok i -> omap fst (sc_StateHeatTransfer s) = Ok st -> i <> -999999 ->
  (do c <- deref (sc_cable s); trc_Resistance c (sc_temperature s)) = Ok r -> 0 < r ->
  ht_convection st + ht_radiation st + ht_resistance st + ht_solar st + ht_storage st = 0 /\ (ht_storage st : R) = 0 /\
  i * i * r = Rabs (ht_resistance st) /\ (i < 0 <-> ht_resistance st < 0) /\ (0 < i <-> 0 < ht_resistance st).
Proof.
  intros ks s i r st Rn Hi Hs N Hr P.
  assert (B : sc_based s) by (apply (sc_run_based _ _ _ Rn); intros F; discriminate F).
  destruct (sc_pair s i st B Hi Hs) as [(-> & _)|(b & u & w & E & U & VC & VW & -> & ->)].
  { exfalso. apply N. exact ferr_R. }
  rewrite E in Hr. cbn [deref obind trc_Resistance trc_base] in Hr. injection Hr as <-.
  destruct (sums_balance b u w (sc_temperature s)) as (A1 & A2). split; [exact A1|]. split; [exact A2|].
  exact (amps_square b _ _ P).
Qed.

Lemma fresh_result : forall b u (w : ThermalRatingWeather RNum) (t : R), trc_Validate (mkThermalRatingCable (Some b)) = true -> tw_Validate w = true ->
  u <> USNull -> sc_result (sc_fresh (N := RNum) (wire b) t u (Some w)) = (true, (sums b u w t, amps b t (sums b u w t))).
Proof.
  intros b u w t C W U. unfold sc_result. cbn [sc_fresh sc_set_weather sc_set_units sc_set_temperature sc_set_cable sc_cable sc_temperature sc_units sc_weather].
  destruct (current_state_cases (N := RNum) (wire b) t u (Some w)) as [(V & _)|(b' & w' & E1 & E2 & _ & _ & _ & -> & A)].
  - unfold wire in V. rewrite hs_valid in V by assumption. discriminate V.
  - unfold wire in E1. injection E1 as <-. injection E2 as <-. rewrite A. reflexivity.
Qed.

Lemma fresh_answers : forall b u (w : ThermalRatingWeather RNum) (t : R), trc_Validate (mkThermalRatingCable (Some b)) = true -> tw_Validate w = true ->
  u <> USNull -> omap fst (sc_Current (sc_fresh (wire b) t u (Some w))) = Ok (amps b t (sums b u w t)) /\
  omap fst (sc_StateHeatTransfer (sc_fresh (wire b) t u (Some w))) = Ok (sums b u w t).
Proof.
  intros b u w t C W U. assert (F := fresh_result b u w t C W U).
  destruct (sc_ensure_result (sc_fresh (N := RNum) (wire b) t u (Some w))) as (s' & E & _ & _ & Q); [intros H; discriminate H|].
  unfold sc_Current, sc_StateHeatTransfer. rewrite E, F. rewrite F in Q. cbn [fst snd] in *. destruct (Q eq_refl) as (Q1 & Q2).
  cbn [obind omap fst]. rewrite Q1, Q2. auto.
Qed.

(** At the air temperature only the sun heats. *)
Lemma sums_air : forall (b : Cable RNum) u (w : ThermalRatingWeather RNum), u <> USNull ->
  (ht_resistance (sums b u w (tw_temperature_air w)) : R) = - (cb_absorptivity b * tw_radiation_solar w * cb_diameter b).
Proof.
  intros b u w U. unfold sums. cbn [ht_resistance]. rewrite convection_air, radiation_air by exact U. unfold solar. rn. rring.
Qed.

Theorem current_balance_refuted : exists ks (s : CurrentSolver RNum) (i r : R) st, sc_run CurrentSolver_default ks = Ok s /\
  omap fst (sc_Validate s) = Ok true /\ omap fst (sc_Current s) = Ok i /\ omap fst (sc_StateHeatTransfer s) = Ok st /\
  (do c <- deref (sc_cable s); trc_Resistance c (sc_temperature s)) = Ok r /\
  (forall b, sc_cable s = wire b -> Forall (fun p : ResistancePoint RNum => 0 < rp_resistance p) (cb_resistances b)) /\
  forall j : R, j * j * r <> Rabs (ht_resistance st).
Proof.
  exists [CcSetCable (wire base3); CcSetTemperature (N := RNum) (0 : R); CcSetUnits Metric; CcSetWeather (Some (calm 4))].
  assert (W : tw_Validate (calm 4) = true) by (apply calm_valid; lra).
  assert (U : Metric <> USNull) by discriminate.
  destruct (fresh_answers base3 Metric (calm 4) (0 : R) base3_valid W U) as (A & B).
  eexists _, _, (-4 : R), _. split; [reflexivity|].
  change (sc_set_weather (sc_set_units (sc_set_temperature (sc_set_cable CurrentSolver_default (wire base3)) 0) Metric) (Some (calm 4)))
    with (sc_fresh (N := RNum) (wire base3) (0 : R) Metric (Some (calm 4))).
  split; [|split; [exact A|split; [exact B|split; [|split]]]].
  - unfold sc_Validate. destruct (sc_Update_result (sc_fresh (N := RNum) (wire base3) (0 : R) Metric (Some (calm 4)))) as (s' & -> & _).
    rewrite (fresh_result base3 Metric (calm 4) 0 base3_valid W U). cbn [obind omap fst]. f_equal.
    unfold sc_fresh, wire. cbn [sc_set_weather sc_set_units sc_set_temperature sc_set_cable sc_cable sc_temperature sc_units sc_weather].
    rewrite base3_valid, W. rn. rdec. reflexivity.
  - cbn [sc_fresh sc_set_weather sc_set_units sc_set_temperature sc_set_cable sc_cable sc_temperature wire deref obind trc_Resistance trc_base].
    f_equal. exact base3_low.
  - intros b E. unfold wire, sc_fresh in E. cbn in E. injection E as <-. unfold base3, cable_of. cbn [cb_resistances].
    repeat constructor; cbn; lra.
  - intros j. assert (Q := sums_air base3 Metric (calm 4) U). change (tw_temperature_air (calm 4)) with (0 : R) in Q. rewrite Q.
    unfold base3, cable_of, calm. cbn [cb_absorptivity cb_diameter tw_radiation_solar].
    replace (- (1 * 4 * 1)) with (-4) by ring. rewrite Rabs_left by lra. intros E. assert (0 <= j * j) by apply Rle_0_sqr. lra.
Qed.

(** A current that balances the sun. *)
Lemma sunny_current : forall sun, 0 <= sun ->
  exists i : R, omap fst (sc_Current (sc_fresh (N := RNum) (wire base2) (0 : R) Metric (Some (calm sun)))) = Ok i /\
    i * i = sun /\ i <= 0.
Proof.
  intros sun H. assert (U : Metric <> USNull) by discriminate.
  destruct (fresh_answers base2 Metric (calm sun) (0 : R) base2_valid (calm_valid sun H) U) as (E & _).
  eexists. split; [exact E|].
  assert (Q := sums_air base2 Metric (calm sun) U). change (tw_temperature_air (calm sun)) with (0 : R) in Q.
  assert (P : 0 < table_resistance (N := RNum) (cb_resistances base2) (0 : R)) by (rewrite base2_resistance; lra).
  destruct (amps_square base2 (0 : R) (sums base2 Metric (calm sun) (0 : R)) P) as (A1 & A2 & A3). rewrite base2_resistance in A1. rewrite Q in *.
  replace (- (cb_absorptivity base2 * tw_radiation_solar (calm sun) * cb_diameter base2)) with (- sun) in * by (cbn; ring).
  rewrite Rabs_left1 in A1 by lra. split; [lra|]. apply Rnot_lt_le. intros L. apply A3 in L. lra.
Qed.

(** ** C44 *)
Theorem current_stale : exists (c : option (ThermalRatingCable RNum)) (t : R) u w w' (i i' : R) s,
  sc_run (N := RNum) CurrentSolver_default [CcSetCable c; CcSetTemperature (N := RNum) t; CcSetUnits u; CcSetWeather w; CcCurrent; CcSetWeather w'] = Ok s /\
  omap fst (sc_Current s) = Ok i /\ omap fst (sc_Current (sc_renew s)) = Ok i' /\ i <> i'.
Proof.
  destruct (sunny_current 4 ltac:(lra)) as (i & E & I1 & I2). destruct (sunny_current 0 ltac:(lra)) as (i' & E' & I1' & _).
  exists (wire base2), (0 : R), Metric, (Some (calm 4)), (Some (calm 0)), i, i'.
  assert (U : Metric <> USNull) by discriminate.
  assert (Hf := fresh_result base2 Metric (calm 4) (0 : R) base2_valid (calm_valid 4 ltac:(lra)) U).
  destruct (sc_ensure_result (sc_fresh (N := RNum) (wire base2) (0 : R) Metric (Some (calm 4)))) as (s' & X & (X1 & X2 & X3 & X4) & X5 & X6); [intros H; discriminate H|].
  rewrite Hf in X, X5, X6. cbn [fst snd] in X, X5, X6. destruct (X6 eq_refl) as (X7 & X8).
  exists (sc_set_weather s' (Some (calm 0))). split; [|split; [|split]].
  - cbn [sc_run sc_call obind].
    change (sc_set_weather (sc_set_units (sc_set_temperature (sc_set_cable CurrentSolver_default (wire base2)) (0 : R)) Metric) (Some (calm 4)))
      with (sc_fresh (N := RNum) (wire base2) (0 : R) Metric (Some (calm 4))).
    unfold sc_Current. rewrite X. reflexivity.
  - unfold sc_Current in E. rewrite X in E. cbn [obind omap fst] in E. injection E as E.
    unfold sc_Current, sc_ensure, sc_set_weather. cbn [sc_is_updated]. rewrite X5. cbn [obind omap fst sc_current]. f_equal. exact E.
  - unfold sc_renew. cbn [sc_set_weather sc_cable sc_temperature sc_units sc_weather].
    replace (sc_cable s') with (wire base2) by (rewrite X1; reflexivity).
    replace (sc_temperature s') with (0 : R) by (rewrite X2; reflexivity).
    replace (sc_units s') with Metric by (rewrite X3; reflexivity). exact E'.
  - intros ->. lra.
Qed.

(** ** The steady temperature *)
Definition f0 (sun : R) : R -> R := curve (N := RNum) (wire base2) Metric (Some (calm sun)).

(** The heat of the calm weather without sun. *)
Definition loss (t : R) : R := - (convection (N := RNum) Metric (1 : R) (calm 0) t + radiation (N := RNum) Metric base2 (calm 0) t).

Lemma f0_square : forall sun t : R, 0 <= sun ->
  f0 sun t * f0 sun t = Rabs (loss t - sun) /\ (f0 sun t < 0 <-> loss t - sun < 0) /\ (0 < f0 sun t <-> 0 < loss t - sun).
Proof.
  intros sun t H.
  assert (E : f0 sun t = amps base2 t (sums base2 Metric (calm sun) t)).
  { unfold f0, curve. rewrite fresh_result; [reflexivity|exact base2_valid|apply calm_valid; exact H|discriminate]. }
  assert (P : 0 < table_resistance (N := RNum) (cb_resistances base2) (t : R)) by (rewrite base2_resistance; lra).
  assert (A := amps_square base2 t (sums base2 Metric (calm sun) t) P). rewrite <- E, base2_resistance in A. cbv zeta in A.
  replace (ht_resistance (sums base2 Metric (calm sun) t)) with (loss t - sun) in A.
  - rewrite Rmult_1_r in A. exact A.
  - unfold sums, loss, solar. cbn [ht_resistance].
    change (convection Metric (cb_diameter base2) (calm sun) t) with (convection (N := RNum) Metric (1 : R) (calm 0) t).
    change (radiation Metric base2 (calm sun) t) with (radiation (N := RNum) Metric base2 (calm 0) t).
    unfold base2, cable_of, calm. cbn [cb_absorptivity cb_diameter tw_radiation_solar]. rn. rring.
Qed.

Lemma loss_air : loss 0 = 0.
Proof.
  unfold loss. assert (U : Metric <> USNull) by discriminate.
  assert (A := convection_air Metric (1 : R) (calm 0) U). assert (B := radiation_air Metric base2 (calm 0) U).
  change (tw_temperature_air (calm 0)) with (0 : R) in A, B. rewrite A, B. ring.
Qed.

Lemma loss_warm : forall t, 0 < t -> 0 < loss t.
Proof.
  intros t T. unfold loss.
  assert (C : convection (N := RNum) Metric (1 : R) (calm 0) t < 0).
  { apply convection_strict; cbn; try discriminate; lra. }
  assert (D : radiation (N := RNum) Metric base2 (calm 0) t <= 0).
  { apply radiation_sign; cbn; try discriminate; lra. }
  lra.
Qed.

Lemma f0_air : f0 0 0 = 0.
Proof.
  destruct (f0_square 0 0 ltac:(lra)) as (A & B & C). rewrite loss_air in *.
  destruct (Rtotal_order (f0 0 0) 0) as [L|[L|L]]; [apply B in L; lra|exact L|apply C in L; lra].
Qed.

Lemma f0_warm : forall t, 0 < t -> 0 < f0 0 t.
Proof. intros t T. destruct (f0_square 0 t ltac:(lra)) as (_ & _ & C). apply C. assert (L := loss_warm t T). lra. Qed.

Definition left0 (sun : R) : Point2d RNum := mkPoint2d (N := RNum) (0 : R) (f0 sun 0).
Definition right0 (sun : R) : Point2d RNum := mkPoint2d (N := RNum) (10 : R) (f0 sun 10).

Lemma start_0 : forall sun s, start (N := RNum) (wire base2) Metric (calm sun) s =
  mkTempState (N := RNum) (left0 sun) (right0 sun) Point2d_default 0 s.
Proof.
  intros sun s. unfold start. change (tw_temperature_air (calm sun)) with (0 : R). rn.
  replace (0 + 10) with 10 by ring. reflexivity.
Qed.

Section Stuck.
Variables (c : option (ThermalRatingCable RNum)) (u : UnitSystem) (w : option (ThermalRatingWeather RNum)) (target : R) (l r : Point2d RNum).
Let x : R := step_x (N := RNum) target l r.
Hypothesis far : 1 / 10 < Rabs (p2x l - p2x r).
Hypothesis stays : step_points (N := RNum) target l r (mkPoint2d (N := RNum) x (curve (N := RNum) c u w x)) = (l, r).

Lemma stuck_loop : forall fuel s s', at_some c u w s -> tl_left s = l -> tl_right s = r ->
  (101 <= tl_iter s + Z.of_nat fuel)%Z -> temp_loop (N := RNum) target fuel s = Ok s' -> (101 <= tl_iter s')%Z.
Proof using far stays.
  induction fuel as [|fuel IH]; intros s s' A L Q I H.
  - injection H as <-. lia.
  - cbn [temp_loop] in H. rewrite L, Q in H.
    assert (G : fltb (n := RNum) (flit (n := RNum) 1 (-1)) (fabs (n := RNum) (fsub (n := RNum) (p2x l) (p2x r))) = true).
    { rn. rewrite flit_R, lit01. apply Rltb_true. exact far. }
    rewrite G in H. cbn [andb] in H. destruct (tl_iter s <=? 100)%Z eqn:E; [|injection H as <-; lia].
    destruct (temp_pass_ok c u w target s A) as (s1 & P & S1 & C1 & I1 & LR). rewrite P in H. cbn [obind] in H.
    rewrite L, Q in LR. fold x in LR. rewrite stays in LR. injection LR as L1 R1.
    apply (IH s1 s'); try assumption; [eexists; exact S1|lia].
Qed.
End Stuck.

(** A target that one of the first two points meets exactly leaves the loop where it is. *)
Lemma stuck_fails : forall sun (i x : R), step_x (N := RNum) i (left0 sun) (right0 sun) = x -> x = 0 \/ x = 10 ->
  solve_temperature (N := RNum) (wire base2) i Metric (Some (calm sun)) = Ok (false, (HeatState_default, ferr)).
Proof.
  intros sun i x X O. destruct (solve_start (N := RNum) (wire base2) i Metric (calm sun)) as (s & A & ->). rewrite start_0.
  destruct (temp_loop_ok (wire base2) Metric (Some (calm sun)) i (Z.to_nat 102)
    (mkTempState (N := RNum) (left0 sun) (right0 sun) Point2d_default 0 s)) as (s' & E & _); [eexists; exact A|].
  rewrite E. cbn [obind].
  assert (I : (101 <= tl_iter s')%Z).
  { refine (stuck_loop (wire base2) Metric (Some (calm sun)) i (left0 sun) (right0 sun) _ _ (Z.to_nat 102) _ s' _ _ _ _ E).
    - cbn. rewrite Rabs_left; lra.
    - rewrite X. unfold step_points, left0, right0. cbn [p2x p2y]. rn.
      destruct O as [->| ->]; rdec; reflexivity.
    - eexists. exact A.
    - reflexivity.
    - reflexivity.
    - cbn [tl_iter]. lia. }
  assert (N : (tl_iter s' <? 100)%Z = false) by (apply Z.ltb_ge; lia). rewrite N. reflexivity.
Qed.

(** A target that the secant of the first two points puts just above the second one. *)
Lemma quick_solved : forall sun (i x : R), step_x (N := RNum) i (left0 sun) (right0 sun) = x -> 10 < x <= 101 / 10 ->
  exists st, solve_temperature (N := RNum) (wire base2) i Metric (Some (calm sun)) = Ok (true, (st, x)).
Proof.
  intros sun i x X O. destruct (solve_start (N := RNum) (wire base2) i Metric (calm sun)) as (s & A & ->). rewrite start_0.
  set (s0 := mkTempState (N := RNum) (left0 sun) (right0 sun) Point2d_default 0 s).
  destruct (temp_pass_ok (wire base2) Metric (Some (calm sun)) i s0) as (s1 & P & S1 & C1 & I1 & LR); [eexists; exact A|].
  change (step_x (N := RNum) i (tl_left s0) (tl_right s0)) with (step_x (N := RNum) i (left0 sun) (right0 sun)) in *.
  rewrite X in *.
  assert (Y : forall y, step_points (N := RNum) i (tl_left s0) (tl_right s0) (mkPoint2d (N := RNum) x y)
    = (tl_right s0, mkPoint2d (N := RNum) x y)).
  { intros y. unfold step_points. cbn [p2x p2y tl_left tl_right s0 left0 right0]. rn. rdec. rewrite Bool.andb_false_r. reflexivity. }
  rewrite Y in LR. injection LR as L1 R1.
  change (Z.to_nat 102) with (S (S (Z.to_nat 100))). cbn [temp_loop].
  assert (G0 : fltb (n := RNum) (flit (n := RNum) 1 (-1)) (fabs (n := RNum) (fsub (n := RNum) (p2x (tl_left s0)) (p2x (tl_right s0)))) = true).
  { rn. rewrite flit_R, lit01. cbn. apply Rltb_true. rewrite Rabs_left; lra. }
  rewrite G0. change (tl_iter s0 <=? 100)%Z with true. cbn [andb]. rewrite P. cbn [obind].
  assert (G1 : fltb (n := RNum) (flit (n := RNum) 1 (-1)) (fabs (n := RNum) (fsub (n := RNum) (p2x (tl_left s1)) (p2x (tl_right s1)))) = false).
  { rewrite L1, R1. cbn [p2x tl_right s0 right0]. rn. rewrite flit_R, lit01. apply Rltb_false. rewrite Rabs_left; lra. }
  rewrite G1. cbn [andb obind]. rewrite I1. change (tl_iter s0 + 1 <? 100)%Z with true. cbn iota.
  assert (Q := probe_state _ _ _ _ _ S1). destruct (sc_StateHeatTransfer (tl_solver s1)) as [(st & s2)| |]; try discriminate Q.
  cbn [obind]. rewrite C1. exists st. reflexivity.
Qed.

(** The current that keeps the cable at 10 degrees without sun, and a sun for which the
    first secant step with the same current is the last one. *)
Definition i0 : R := f0 0 10.
Definition sun0 : R := (15 / 113 * i0) * (15 / 113 * i0).

Lemma i0_pos : 0 < i0.
Proof. apply f0_warm. lra. Qed.

Lemma sun0_pos : 0 < sun0.
Proof. assert (H := i0_pos). unfold sun0. nra. Qed.

Lemma loss_10 : loss 10 = i0 * i0.
Proof.
  destruct (f0_square 0 10 ltac:(lra)) as (A & _). fold i0 in A. assert (L := loss_warm 10 ltac:(lra)).
  rewrite Rabs_right in A by lra. lra.
Qed.

Lemma f0_sun_air : f0 sun0 0 = - (15 / 113 * i0).
Proof.
  assert (P := sun0_pos). assert (Q := i0_pos). destruct (f0_square sun0 0 ltac:(lra)) as (A & B & _). rewrite loss_air in *.
  assert (N : f0 sun0 0 < 0) by (apply B; lra). rewrite Rabs_left in A by lra. unfold sun0 in A at 3.
  assert (E : (f0 sun0 0 - 15 / 113 * i0) * (f0 sun0 0 + 15 / 113 * i0) = 0) by (unfold sun0 in *; lra).
  apply Rmult_integral in E. destruct E; lra.
Qed.

Lemma f0_sun_10 : f0 sun0 10 = 112 / 113 * i0.
Proof.
  assert (P := sun0_pos). assert (Q := i0_pos). destruct (f0_square sun0 10 ltac:(lra)) as (A & _ & C). rewrite loss_10 in *.
  assert (G : 0 < i0 * i0 - sun0) by (unfold sun0; nra). assert (N : 0 < f0 sun0 10) by (apply C; lra).
  rewrite Rabs_right in A by lra.
  assert (E : (f0 sun0 10 - 112 / 113 * i0) * (f0 sun0 10 + 112 / 113 * i0) = 0) by (unfold sun0 in A at 3; lra).
  apply Rmult_integral in E. destruct E; lra.
Qed.

Lemma i0_sun : exists st, solve_temperature (N := RNum) (wire base2) i0 Metric (Some (calm sun0)) = Ok (true, (st, (1280 / 127 : R))).
Proof.
  apply quick_solved; [|lra]. unfold step_x, left0, right0. cbn [p2x p2y]. rn. rewrite f0_sun_air, f0_sun_10.
  assert (Q := i0_pos). rfield. lra.
Qed.

Lemma i0_calm : solve_temperature (N := RNum) (wire base2) i0 Metric (Some (calm 0)) = Ok (false, (HeatState_default, ferr)).
Proof.
  apply (stuck_fails 0 i0 10); [|auto]. unfold step_x, left0, right0. cbn [p2x p2y]. rn. rewrite f0_air. fold i0.
  assert (Q := i0_pos). rfield. lra.
Qed.

Lemma no_current : solve_temperature (N := RNum) (wire base2) (0 : R) Metric (Some (calm 0)) = Ok (false, (HeatState_default, ferr)).
Proof.
  apply (stuck_fails 0 0 0); [|auto]. unfold step_x, left0, right0. cbn [p2x p2y]. rn. rewrite f0_air. fold i0.
  assert (Q := i0_pos). rfield. lra.
Qed.

Lemma st_fresh_solve : forall c (i : R) u w, st_solve (st_fresh (N := RNum) c i u w) = solve_temperature (N := RNum) c i u w.
Proof. reflexivity. Qed.

Lemma st_fresh_answer : forall c (i : R) u w b st t, solve_temperature (N := RNum) c i u w = Ok (b, (st, t)) ->
  exists s', st_TemperatureCable (st_fresh (N := RNum) c i u w) = Ok (if b then t else ferr, s') /\
    st_StateHeatTransfer (st_fresh (N := RNum) c i u w) = Ok (if b then st else HeatState_default, s') /\
    st_cable s' = c /\ st_current s' = i /\ st_units s' = u /\ st_weather s' = w /\ st_is_updated s' = b /\ st_temperature s' = t.
Proof.
  intros c i u w b st t E. unfold st_TemperatureCable, st_StateHeatTransfer, st_ensure.
  change (st_is_updated (st_fresh c i u w)) with false. unfold st_Update.
  cbn [st_fresh st_set_weather st_set_units st_set_current st_set_cable st_cable st_current st_units st_weather].
  rewrite E. cbn [obind]. eexists. cbn [st_temperature st_state]. destruct b; repeat (split; [reflexivity|]); reflexivity.
Qed.

Theorem temperature_stale : exists (c : option (ThermalRatingCable RNum)) (i : R) u w w' (t t' : R) s,
  st_run (N := RNum) TemperatureSolver_default
    [TcSetCable c; TcSetCurrent (N := RNum) i; TcSetUnits u; TcSetWeather (Some w); TcTemperature; TcSetWeather (Some w')] = Ok s /\
  tw_Validate w' = true /\
  omap fst (st_TemperatureCable s) = Ok t /\ omap fst (st_TemperatureCable (st_renew s)) = Ok t' /\ t <> t'.
Proof.
  destruct i0_sun as (st & E). destruct (st_fresh_answer _ _ _ _ _ _ _ E) as (s' & A & _ & A1 & A2 & A3 & A4 & A5 & A6).
  destruct (st_fresh_answer _ _ _ _ _ _ _ i0_calm) as (s'' & B & _).
  exists (wire base2), i0, Metric, (calm sun0), (calm 0), (1280 / 127 : R), (-999999 : R), (st_set_weather s' (Some (calm 0))).
  split; [|split; [apply calm_valid; lra|split; [|split; [|lra]]]].
  - cbn [st_run st_call obind].
    change (st_set_weather (st_set_units (st_set_current (st_set_cable TemperatureSolver_default (wire base2)) i0) Metric) (Some (calm sun0)))
      with (st_fresh (N := RNum) (wire base2) i0 Metric (Some (calm sun0))).
    rewrite A. reflexivity.
  - unfold st_TemperatureCable, st_ensure, st_set_weather. cbn [st_is_updated]. rewrite A5. cbn [obind omap fst st_temperature].
    rewrite A6. reflexivity.
  - unfold st_renew. cbn [st_set_weather st_cable st_current st_units st_weather]. rewrite A1, A2, A3, B. cbn [omap obind fst].
    rewrite ferr_R. reflexivity.
Qed.

(** ** The answer of the temperature solver *)
Lemma curve_current : forall c u w (t : R), omap fst (sc_Current (sc_fresh (N := RNum) c t u w)) = Ok (curve (N := RNum) c u w t) /\
  omap fst (sc_StateHeatTransfer (sc_fresh (N := RNum) c t u w)) = Ok (hstate (N := RNum) c u w t).
Proof.
  intros c u w t. destruct (sc_ensure_result (sc_fresh (N := RNum) c t u w)) as (s' & E & _ & _ & Q); [intros H; discriminate H|].
  unfold sc_Current, sc_StateHeatTransfer, curve, hstate. rewrite E. cbn [obind omap fst].
  destruct (fst (sc_result (sc_fresh (N := RNum) c t u w))); [|auto]. destruct (Q eq_refl) as (-> & ->). auto.
Qed.

Theorem temperature_answer : forall ks (s : TemperatureSolver RNum) w (t : R) st, st_run TemperatureSolver_default ks = Ok s ->
  stale false false (map temperature_event ks) = false -> st_weather s = Some w ->
  omap fst (st_TemperatureCable s) = Ok t -> omap fst (st_StateHeatTransfer s) = Ok st -> t <> -999999 ->
  omap fst (sc_StateHeatTransfer (sc_fresh (st_cable s) t (st_units s) (Some w))) = Ok st /\
  exists f : R -> R, (forall x : R, omap fst (sc_Current (sc_fresh (st_cable s) x (st_units s) (Some w))) = Ok (f x)) /\
    secant_close f (st_current s) (1 / 10) t.
Proof.
  intros ks s w t st Rn Fr W T S1 N. destruct (st_history ks s Rn) as (Sm & _). destruct (Sm Fr) as (M1 & M2 & _).
  rewrite M1 in T. rewrite M2 in S1. clear M1 M2 Sm.
  destruct (solve_temperature_ok (st_cable s) (st_current s) (st_units s) w) as (b & st' & t' & E).
  unfold st_renew in *. rewrite W in *.
  destruct (st_fresh_answer _ _ _ _ _ _ _ E) as (s' & A & B & _). rewrite A in T. rewrite B in S1.
  cbn [omap obind fst] in T, S1. injection T as <-. injection S1 as <-. destruct b.
  - destruct (solve_temperature_spec _ _ _ _ _ _ E) as (-> & Q). split.
    + apply curve_current.
    + exists (curve (N := RNum) (st_cable s) (st_units s) (Some w)). split; [|exact Q]. intros x. apply curve_current.
  - exfalso. apply N. exact ferr_R.
Qed.

Theorem temperature_missed : exists c u w (i : R), let s := st_fresh (N := RNum) c i u (Some w) in
  omap fst (sc_Validate (sc_fresh c (tw_temperature_air w) u (Some w))) = Ok true /\
  omap fst (sc_Current (sc_fresh c (tw_temperature_air w) u (Some w))) = Ok i /\
  omap fst (st_TemperatureCable s) = Ok (-999999 : R) /\ omap fst (st_Validate s) = Ok false.
Proof.
  exists (wire base2), Metric, (calm 0), (0 : R). cbv zeta.
  assert (U : Metric <> USNull) by discriminate. assert (W : tw_Validate (calm 0) = true) by (apply calm_valid; lra).
  destruct (st_fresh_answer _ _ _ _ _ _ _ no_current) as (s' & A & _).
  split; [|split; [|split]].
  - change (tw_temperature_air (calm 0)) with (0 : R).
    unfold sc_Validate. destruct (sc_Update_result (sc_fresh (N := RNum) (wire base2) (0 : R) Metric (Some (calm 0)))) as (s1 & -> & _).
    rewrite (fresh_result base2 Metric (calm 0) 0 base2_valid W U). cbn [obind omap fst]. f_equal.
    unfold sc_fresh, wire. cbn [sc_set_weather sc_set_units sc_set_temperature sc_set_cable sc_cable sc_temperature sc_units sc_weather].
    rewrite base2_valid, W. rn. rdec. reflexivity.
  - change (tw_temperature_air (calm 0)) with (0 : R). rewrite (proj1 (curve_current _ _ _ _)). f_equal. exact f0_air.
  - rewrite A. cbn [omap obind fst]. rewrite ferr_R. reflexivity.
  - unfold st_Validate. rewrite st_Update_eq, st_fresh_solve, no_current. cbn [omap obind fst]. rewrite Bool.andb_false_r. reflexivity.
Qed.

(** ** The history of the transient solver *)
Theorem transient_history : forall ks, exists s, ts_run (@TransientSolver_default RNum) ks = Ok s /\
  let h := mkHeatSolver (ts_cable s) (ts_units s) (ts_weather s) in
  if hs_Validate h then
    exists l, omap fst (ts_PointsTemperature s) = Ok (Some l) /\ length l = Z.to_nat (ts_duration s + 1) /\
      (forall i p, nth_error l i = Some p -> tp_time p = Z.of_nat i) /\
      (forall p, nth_error l 0 = Some p ->
         omap fst (st_TemperatureCable (st_fresh (ts_cable s) (ts_current_steady s) (ts_units s) (ts_weather s))) = Ok (tp_temperature p)) /\
      (forall b i p q, ts_cable s = Some (mkThermalRatingCable (Some b)) -> nth_error l i = Some p -> nth_error l (S i) = Some q ->
         heats_up b h (ts_current_step s) (tp_temperature p) (tp_temperature q))
  else omap fst (ts_PointsTemperature s) = Ok None.
Proof.
  intros ks. destruct (ts_history (N := RNum) ks) as (s & Rn & (Sm & _) & _). exists s. split; [exact Rn|]. cbv zeta.
  rewrite Sm. clear Sm Rn ks.
  destruct (ts_Update_ok (N := RNum) (ts_renew s)) as (b & s' & E & _ & _ & Up).
  unfold ts_PointsTemperature. change (ts_is_updated (ts_renew s)) with false. cbn iota. rewrite E. cbn [obind omap fst].
  unfold UpdateTemperaturePoints in Up.
  change (ts_cable (ts_renew s)) with (ts_cable s) in Up. change (ts_units (ts_renew s)) with (ts_units s) in Up.
  change (ts_weather (ts_renew s)) with (ts_weather s) in Up. change (ts_duration (ts_renew s)) with (ts_duration s) in Up.
  destruct (hs_Validate (mkHeatSolver (ts_cable s) (ts_units s) (ts_weather s))) eqn:V; cbn [negb] in Up.
  - destruct (points_loop (ts_renew s) (Z.to_nat (ts_duration s + 1)) 0 None) as [l| |] eqn:P; cbn [obind] in Up; try discriminate Up.
    injection Up as <- <-. exists l. split; [reflexivity|].
    destruct (points_loop_ok (ts_renew s) (Z.to_nat (ts_duration s + 1)) 0 None V ltac:(lia) ltac:(lia)) as (l' & P' & L & T).
    rewrite P in P'. injection P' as <-. split; [exact L|]. split; [intros i p H; rewrite (T i p H); lia|].
    destruct (points_loop_next _ _ _ _ _ P ltac:(lia)) as (H0 & H1). split.
    + intros p H. assert (G := H0 p H). cbn [Z.eqb] in G. exact G.
    + intros b i p q C Hp Hq. assert (G := H1 i p q Hp Hq).
      change (ts_cable (ts_renew s)) with (ts_cable s) in G. change (ts_units (ts_renew s)) with (ts_units s) in G.
      change (ts_weather (ts_renew s)) with (ts_weather s) in G. change (ts_current_step (ts_renew s)) with (ts_current_step s) in G.
      unfold heats_up, ts_HeatTransferState in *.
      destruct (hs_HeatConvection _ _) as [cv| |]; try discriminate G. cbn [obind] in G.
      destruct (hs_HeatRadiation _ _) as [rd| |]; try discriminate G. cbn [obind] in G.
      destruct (hs_HeatResistance _ _ _) as [re| |]; try discriminate G. cbn [obind] in G.
      destruct (hs_HeatSolar _) as [so| |]; try discriminate G. cbn [obind] in G.
      unfold TemperatureNew, base_of in G. rewrite C in G. cbn [deref obind trc_base ht_storage] in G.
      exists cv, rd, re, so. do 4 (split; [reflexivity|]).
      assert (G' : forall x y : R, @Ok R x = Ok y -> x = y) by (intros x y Q; injection Q; auto). apply G' in G. rewrite <- G.
      unfold HeatStored. rn. unfold Rdiv. rring.
  - injection Up as <- _. reflexivity.
Qed.

Theorem transient_unsolved : exists ks (s : TransientSolver RNum) p rest, ts_run TransientSolver_default ks = Ok s /\
  omap fst (ts_Validate s) = Ok true /\ omap fst (ts_PointsTemperature s) = Ok (Some (p :: rest)) /\
  (tp_temperature p : R) = -999999.
Proof.
  set (ks := [RcSetCable (wire base2); RcSetCurrentSteady (N := RNum) (0 : R); RcSetCurrentStep (N := RNum) (0 : R); RcSetDuration 0;
    RcSetUnits Metric; RcSetWeather (Some (calm 0))]).
  destruct (transient_history ks) as (s & Rn & H). exists ks, s.
  assert (W : tw_Validate (calm 0) = true) by (apply calm_valid; lra).
  assert (V : hs_Validate (mkHeatSolver (wire base2) Metric (Some (calm 0))) = true) by (apply hs_valid; [exact base2_valid|exact W|discriminate]).
  assert (Es : s = ts_fresh (N := RNum) (wire base2) (0 : R) (0 : R) 0 Metric (Some (calm 0))) by (cbn in Rn; injection Rn; auto).
  cbv zeta in H.
  replace (ts_cable s) with (wire base2) in H by (rewrite Es; reflexivity).
  replace (ts_units s) with Metric in H by (rewrite Es; reflexivity).
  replace (ts_weather s) with (Some (calm 0)) in H by (rewrite Es; reflexivity).
  replace (ts_duration s) with 0%Z in H by (rewrite Es; reflexivity).
  replace (ts_current_steady s) with (0 : R) in H by (rewrite Es; reflexivity).
  rewrite V in H. destruct H as (l & P & L & _ & H0 & _). destruct l as [|p rest]; [discriminate L|].
  exists p, rest. split; [exact Rn|]. split; [|split; [exact P|]].
  - rewrite Es in *. unfold ts_Validate. destruct (ts_Update_ok (ts_fresh (N := RNum) (wire base2) (0 : R) (0 : R) 0 Metric (Some (calm 0)))) as (b & s' & E & _ & _ & Up).
    unfold ts_PointsTemperature in P. change (ts_is_updated (ts_fresh (N := RNum) (wire base2) (0 : R) (0 : R) 0 Metric (Some (calm 0)))) with false in P.
    cbn iota in P. rewrite E in *. cbn [obind omap fst] in *. destruct b; [|discriminate P].
    unfold ts_fresh. cbn [ts_set_weather ts_set_units ts_set_duration ts_set_current_step ts_set_current_steady ts_set_cable ts_current_steady ts_current_step ts_duration ts_units ts_weather].
    rewrite W. rn. rdec. reflexivity.
  - assert (G := H0 p eq_refl). destruct (st_fresh_answer _ _ _ _ _ _ _ no_current) as (s' & A & _). rewrite A in G.
    cbn [omap obind fst] in G. injection G as <-. exact ferr_R.
Qed.

(** A history that starts from a solved temperature. *)
Lemma transient_case : exists p q rest, omap fst (ts_PointsTemperature
    (ts_fresh (N := RNum) (wire base2) i0 i0 7 Metric (Some (calm sun0)))) = Ok (Some (p :: q :: rest)) /\
  length rest = 6%nat /\ (tp_temperature p : R) = 1280 / 127.
Proof.
  set (ks := [RcSetCable (wire base2); RcSetCurrentSteady (N := RNum) i0; RcSetCurrentStep (N := RNum) i0; RcSetDuration 7;
    RcSetUnits Metric; RcSetWeather (Some (calm sun0))]).
  destruct (transient_history ks) as (s & Rn & H).
  assert (W : tw_Validate (calm sun0) = true) by (apply calm_valid; assert (P := sun0_pos); lra).
  assert (V : hs_Validate (mkHeatSolver (wire base2) Metric (Some (calm sun0))) = true) by (apply hs_valid; [exact base2_valid|exact W|discriminate]).
  assert (Es : s = ts_fresh (N := RNum) (wire base2) i0 i0 7 Metric (Some (calm sun0))) by (cbn in Rn; injection Rn; auto).
  cbv zeta in H. rewrite Es in H.
  change (ts_cable (ts_fresh (N := RNum) (wire base2) i0 i0 7 Metric (Some (calm sun0)))) with (wire base2) in H.
  change (ts_units (ts_fresh (N := RNum) (wire base2) i0 i0 7 Metric (Some (calm sun0)))) with Metric in H.
  change (ts_weather (ts_fresh (N := RNum) (wire base2) i0 i0 7 Metric (Some (calm sun0)))) with (Some (calm sun0)) in H.
  change (ts_duration (ts_fresh (N := RNum) (wire base2) i0 i0 7 Metric (Some (calm sun0)))) with 7%Z in H.
  change (ts_current_steady (ts_fresh (N := RNum) (wire base2) i0 i0 7 Metric (Some (calm sun0)))) with i0 in H.
  rewrite V in H. destruct H as (l & P & L & _ & H0 & _). destruct l as [|p [|q rest]]; try discriminate L.
  exists p, q, rest. split; [exact P|]. split; [injection L; auto|].
  assert (G := H0 p eq_refl). destruct i0_sun as (st & E). destruct (st_fresh_answer _ _ _ _ _ _ _ E) as (s' & A & _).
  rewrite A in G. cbn [omap obind fst] in G. injection G as <-. reflexivity.
Qed.
