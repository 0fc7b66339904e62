(** Steady currents against the elevation. *)
From Coq Require Import ZArith Bool List Reals Lra Lia Psatz.
From Verif Require Import Num NumFacts ModelBase ModelCable ModelThermal SpecThermal SpecHeat SpecRating SpecAltitude
  ProofReal ProofVector ProofThermal ProofThermalTemp ProofThermalReal ProofThermalCases ProofHeat ProofHeatUnits ProofHeatMono ProofRating.
Import ListNotations.
Open Scope R_scope.

Lemma same_sums : forall (b : Cable RNum) u (w w' : ThermalRatingWeather RNum) (t : R), u <> USNull -> elsewhere w w' ->
  radiation (N := RNum) u b w' t = radiation (N := RNum) u b w t /\ solar (N := RNum) b w' = solar (N := RNum) b w.
Proof. intros b u w w' t U [EA ES EG EV]. rewrite !radiation_R by exact U. rewrite !solar_R, EA, ES. split; reflexivity. Qed.

(** Thinner air takes less heat. *)
Section Thin.
Variable u : UnitSystem.
Hypothesis U : u <> USNull.
Variable d : R.
Hypothesis D : 0 < d.
Variable t : R.
Variables w w' : ThermalRatingWeather RNum.
Hypothesis V : tw_Validate w = true.
Hypothesis E : elsewhere w w'.
Hypothesis T : tw_temperature_air w <= t <= 1000.
Let f : R := (t + tw_temperature_air w) / 2.
Let p : R := density_air (N := RNum) u (tw_elevation w) f.
Let p' : R := density_air (N := RNum) u (tw_elevation w') f.
Hypothesis L : p' <= p.

Lemma convection_thin : convection (N := RNum) u d w t <= convection (N := RNum) u d w' t /\
  (p' < p -> tw_temperature_air w < t -> 0 < tw_speed_wind w -> convection (N := RNum) u d w t < convection (N := RNum) u d w' t).
Proof.
  destruct (weather_valid w V) as (Va & _ & _ & Vs & Vt). destruct E as [EA _ EG EV].
  rewrite !convection_R by exact U. cbv zeta. rewrite EA. fold f. fold p p'. rewrite !forced_R, !natural_R by exact U. cbv zeta. rewrite EA, EG, EV.
  assert (F0 : -100 <= f <= 1000) by (unfold f; lra).
  assert (P' : 0 < p') by (apply (density_pos u (tw_elevation w') f U); lra).
  destruct (near_viscosity f ltac:(lra)) as (_ & M1 & M2). destruct (near_conductivity f ltac:(lra)) as (_ & K1 & K2).
  assert (M : 0 < viscosity_air (N := RNum) u f) by (destruct u; [congruence|exact M1|exact M2]).
  assert (KK : 0 < conductivity_air (N := RNum) u f) by (destruct u; [congruence|exact K1|exact K2]). clear M1 M2 K1 K2.
  set (m := viscosity_air (N := RNum) u f) in *. set (k := conductivity_air (N := RNum) u f) in *.
  assert (G := factor_pos _ (angle_range _ Va)). set (g := wind_factor _) in *.
  set (v := tw_speed_wind w) in *. set (dt := t - tw_temperature_air w) in *. assert (DT : 0 <= dt) by (unfold dt; lra).
  assert (RE : 0 <= d * p' * v / m <= d * p * v / m).
  { assert (0 < / m) by (apply Rinv_0_lt_compat, M). unfold Rdiv. split; [repeat apply Rmult_le_pos; lra|]. apply Rmult_le_compat_r; [lra|]. apply Rmult_le_compat_r; [lra|]. apply Rmult_le_compat_l; lra. }
  assert (RS : p' < p -> 0 < v -> d * p' * v / m < d * p * v / m).
  { intros A B. apply Rmult_lt_compat_r; [apply Rinv_0_lt_compat, M|]. apply Rmult_lt_compat_r; [exact B|]. apply Rmult_lt_compat_l; lra. }
  assert (X0 := frac_le p' p (1 / 2) ltac:(lra) ltac:(lra)). assert (S0 : p' < p -> Rpow_c p' (1 / 2) < Rpow_c p (1 / 2)) by (intros A; apply frac_lt; lra).
  assert (X1 := frac_le _ _ (52 / 100) ltac:(lra) RE). assert (X2 := frac_le _ _ (6 / 10) ltac:(lra) RE).
  assert (S1 : p' < p -> 0 < v -> Rpow_c (d * p' * v / m) (52 / 100) < Rpow_c (d * p * v / m) (52 / 100)) by (intros A B; apply frac_lt; [lra|]; specialize (RS A B); lra).
  assert (S2 : p' < p -> 0 < v -> Rpow_c (d * p' * v / m) (6 / 10) < Rpow_c (d * p * v / m) (6 / 10)) by (intros A B; apply frac_lt; [lra|]; specialize (RS A B); lra).
  assert (KN := knat_pos u). assert (DD := Rpow_frac_pos d (3 / 4) 0 ltac:(lra) D).
  assert (Y : 0 <= Rpow_c dt (5 / 4)) by (apply (Rpow_frac_nonneg dt (5 / 4) 1); lra).
  assert (YS : 0 < dt -> 0 < Rpow_c dt (5 / 4)) by (intros A; apply (Rpow_frac_pos dt (5 / 4) 1); lra).
  set (x0 := Rpow_c p (1 / 2)) in *. set (x0' := Rpow_c p' (1 / 2)) in *.
  set (x1 := Rpow_c (d * p * v / m) (52 / 100)) in *. set (x1' := Rpow_c (d * p' * v / m) (52 / 100)) in *.
  set (x2 := Rpow_c (d * p * v / m) (6 / 10)) in *. set (x2' := Rpow_c (d * p' * v / m) (6 / 10)) in *.
  set (q := Rpow_c d (3 / 4)) in *. set (y := Rpow_c dt (5 / 4)) in *. set (c := knat u) in *.
  assert (GK : 0 < g * k) by (apply Rmult_lt_0_compat; assumption).
  assert (CQ : 0 < c * q) by (apply Rmult_lt_0_compat; assumption).
  replace (c * x0 * q * y) with (c * q * y * x0) by ring. replace (c * x0' * q * y) with (c * q * y * x0') by ring.
  assert (R1 : forall z : R, g * (101 / 100 + 135 / 100 * z) * k * dt = g * k * dt * (101 / 100 + 135 / 100 * z)) by (intros z; ring).
  assert (R2 : forall z : R, g * (754 / 1000) * z * k * dt = g * k * dt * (754 / 1000 * z)) by (intros z; ring).
  rewrite !R1, !R2. clear R1 R2.
  assert (A0 : 0 <= c * q * y) by (apply Rmult_le_pos; lra). assert (A1 : 0 <= g * k * dt) by (apply Rmult_le_pos; lra).
  assert (B0 : 0 < dt -> 0 < c * q * y) by (intros A; apply Rmult_lt_0_compat; [exact CQ|exact (YS A)]).
  assert (B1 : 0 < dt -> 0 < g * k * dt) by (intros A; apply Rmult_lt_0_compat; assumption).
  assert (N0 : c * q * y * x0' <= c * q * y * x0) by (apply Rmult_le_compat_l; lra).
  assert (N1 : g * k * dt * (101 / 100 + 135 / 100 * x1') <= g * k * dt * (101 / 100 + 135 / 100 * x1)) by (apply Rmult_le_compat_l; lra).
  assert (N2 : g * k * dt * (754 / 1000 * x2') <= g * k * dt * (754 / 1000 * x2)) by (apply Rmult_le_compat_l; lra).
  split.
  - clear - N0 N1 N2. change (F RNum) with R in *. apply Ropp_le_contravar. revert N0 N1 N2. unfold Rmax. repeat destruct Rle_dec; lra.
  - intros PP TT VV. assert (DT' : 0 < dt) by (unfold dt; lra). specialize (S0 PP). specialize (S1 PP VV). specialize (S2 PP VV). specialize (B0 DT'). specialize (B1 DT').
    assert (O0 : c * q * y * x0' < c * q * y * x0) by (apply Rmult_lt_compat_l; lra).
    assert (O1 : g * k * dt * (101 / 100 + 135 / 100 * x1') < g * k * dt * (101 / 100 + 135 / 100 * x1)) by (apply Rmult_lt_compat_l; lra).
    assert (O2 : g * k * dt * (754 / 1000 * x2') < g * k * dt * (754 / 1000 * x2)) by (apply Rmult_lt_compat_l; lra).
    clear - O0 O1 O2. change (F RNum) with R in *. apply Ropp_lt_contravar. revert O0 O1 O2. unfold Rmax. repeat destruct Rle_dec; lra.
Qed.
End Thin.

Lemma current_thin : forall (b : Cable RNum) u (w w' : ThermalRatingWeather RNum) (t r : R), let c := mkThermalRatingCable (Some b) in
  trc_Validate c = true -> u <> USNull -> tw_Validate w = true -> tw_Validate w' = true ->
  elsewhere w w' -> tw_temperature_air w <= t <= 1000 -> trc_Resistance c t = Ok r -> 0 < r ->
  let f : R := (t + tw_temperature_air w) / 2 in
  density_air (N := RNum) u (tw_elevation w') f <= density_air (N := RNum) u (tw_elevation w) f ->
  let current v := omap fst (sc_Current (sc_fresh (N := RNum) (Some c) t u (Some v))) in
  exists i i' : R, current w = Ok i /\ current w' = Ok i' /\ i' <= i /\
    (density_air (N := RNum) u (tw_elevation w') f < density_air (N := RNum) u (tw_elevation w) f ->
     tw_temperature_air w < t -> 0 < tw_speed_wind w -> i' < i).
Proof.
  intros b u w w' t r c C U V V' E T Er P f L current. injection Er as <-.
  destruct (fresh_answers b u w t C V U) as (A & _). destruct (fresh_answers b u w' t C V' U) as (A' & _).
  exists (amps b t (sums b u w t)), (amps b t (sums b u w' t)). split; [exact A|]. split; [exact A'|].
  destruct (cable_valid b C) as (D & _). destruct (same_sums b u w w' t U E) as (ER & ES).
  destruct (convection_thin u U (cb_diameter b) D t w w' V E T L) as (C1 & C2).
  assert (G := amps_grow b b t (sums b u w' t) (sums b u w t) eq_refl P). rewrite !sums_resistance, ER, ES in G.
  change (F RNum) with R in *. destruct G as (G1 & G2); [lra|]. split; [exact G1|]. intros Q1 Q2 Q3. specialize (C2 Q1 Q2 Q3). apply G2. lra.
Qed.

(** Up to the sky the air gets thinner. *)
Lemma density_thin : forall u (e e' f : R), u <> USNull -> -200 <= f -> e <= e' <= sky u ->
  density_air (N := RNum) u e' f <= density_air (N := RNum) u e f /\ (e < e' -> density_air (N := RNum) u e' f < density_air (N := RNum) u e f).
Proof.
  intros u e e' f U H L. rewrite !density_R by exact U. assert (Q : 0 < / (1 + 367 / 100000 * f)) by (apply Rinv_0_lt_compat; lra).
  assert (A : dnum u e' <= dnum u e /\ (e < e' -> dnum u e' < dnum u e)).
  { unfold dnum, sky in *. destruct u; [congruence|..]; (split; [nra|intros; nra]). }
  fold (dnum u e) (dnum u e'). destruct A as (A & B). split; [apply Rmult_le_compat_r; lra|]. intros X. apply Rmult_lt_compat_r; [lra|exact (B X)].
Qed.

Lemma rating_altitude : forall (b : Cable RNum) u (w w' : ThermalRatingWeather RNum) (t r : R), let c := mkThermalRatingCable (Some b) in
  trc_Validate c = true -> u <> USNull -> tw_Validate w = true -> tw_Validate w' = true ->
  elsewhere w w' -> tw_elevation w <= tw_elevation w' <= sky u -> tw_temperature_air w <= t <= 1000 -> trc_Resistance c t = Ok r -> 0 < r ->
  let current v := omap fst (sc_Current (sc_fresh (N := RNum) (Some c) t u (Some v))) in
  exists i i' : R, current w = Ok i /\ current w' = Ok i' /\ i' <= i /\
    (tw_elevation w < tw_elevation w' -> tw_temperature_air w < t -> 0 < tw_speed_wind w -> i' < i).
Proof.
  intros b u w w' t r c C U V V' E S T Er P current. destruct (weather_valid w V) as (_ & _ & _ & _ & Vt).
  destruct (density_thin u (tw_elevation w) (tw_elevation w') ((t + tw_temperature_air w) / 2) U ltac:(lra) S) as (A & B).
  destruct (current_thin b u w w' t r C U V V' E T Er P A) as (i & i' & I & I' & G1 & G2).
  exists i, i'. split; [exact I|]. split; [exact I'|]. split; [exact G1|]. intros X. exact (G2 (B X)).
Qed.
