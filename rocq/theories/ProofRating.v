(** Steady currents against the weather and the surface of the cable. *)
From Coq Require Import ZArith Bool List Reals Lra Lia Psatz.
From Verif Require Import Num NumFacts ModelBase ModelCable ModelThermal SpecThermal SpecHeat SpecRating
  ProofReal ProofVector ProofThermal ProofThermalTemp ProofThermalReal ProofThermalCases ProofHeat ProofHeatUnits ProofHeatMono.
Import ListNotations.
Open Scope R_scope.

(** ** Hotter air *)
Section Air.
Variable u : UnitSystem.
Hypothesis U : u <> USNull.
Variable d : R.
Hypothesis D : 0 < d.
Variable t : R.
Hypothesis T : t <= 1000.
Variables w w' : ThermalRatingWeather RNum.
Hypothesis V : tw_Validate w = true.
Hypothesis V' : tw_Validate w' = true.
Hypothesis EA : (tw_angle_wind w' : R) = tw_angle_wind w.
Hypothesis ES : (tw_speed_wind w' : R) = tw_speed_wind w.
Hypothesis EE : (tw_elevation w' : R) = tw_elevation w.
Let ta : R := tw_temperature_air w.
Let ta' : R := tw_temperature_air w'.
Hypothesis L : ta < ta'.
Hypothesis L' : ta' <= t.
Let v : R := tw_speed_wind w.
Let e : R := tw_elevation w.
Let film (x : R) : R := (t + x) / 2.
Let re (x : R) : R := d * density_air (N := RNum) u e (film x) * v / viscosity_air (N := RNum) u (film x).
Let k (x : R) : R := conductivity_air (N := RNum) u (film x).

Lemma air_range : -100 <= ta /\ ta' <= 100.
Proof.
  destruct (weather_valid w V) as (_ & _ & _ & _ & A). destruct (weather_valid w' V') as (_ & _ & _ & _ & A'). fold ta in A. fold ta' in A'. lra.
Qed.

Lemma k_pos : forall x, -100 <= x <= 100 -> x <= t -> 0 < k x.
Proof.
  intros x A B. unfold k. destruct (near_conductivity (film x) ltac:(unfold film; lra)) as (_ & K1 & K2).
  destruct u; [congruence|exact K1|exact K2].
Qed.

(** Conductivity times the difference of temperatures. *)
Lemma conduction_falls : k ta' * (t - ta') < k ta * (t - ta).
Proof.
  destruct air_range as (A & A'). unfold k. rewrite !conductivity_R by exact U. unfold film.
  assert (G : forall k0 k1 k2 : R, 0 < k1 -> 0 < k2 -> k1 * 100 / 2 + k2 * 5000 < k0 / 2 ->
    (k0 + k1 * ((t + ta') / 2) - k2 * ((t + ta') / 2 * ((t + ta') / 2))) * (t - ta') <
    (k0 + k1 * ((t + ta) / 2) - k2 * ((t + ta) / 2 * ((t + ta) / 2))) * (t - ta)).
  { intros k0 k1 k2 P1 P2 P3.
    assert (E : (k0 + k1 * ((t + ta) / 2) - k2 * ((t + ta) / 2 * ((t + ta) / 2))) * (t - ta) -
      (k0 + k1 * ((t + ta') / 2) - k2 * ((t + ta') / 2 * ((t + ta') / 2))) * (t - ta') =
      (ta' - ta) * (k0 + k1 * (ta + ta') / 2 + k2 / 4 * (t * t - t * (ta + ta') - (ta * ta + ta * ta' + ta' * ta')))) by field.
    assert (Q : - 40000 <= t * t - t * (ta + ta') - (ta * ta + ta * ta' + ta' * ta')).
    { assert (0 <= (t - (ta + ta') / 2) * (t - (ta + ta') / 2)) by apply Rle_0_sqr.
      assert (ta * ta <= 10000) by nra. assert (ta' * ta' <= 10000) by nra. nra. }
    assert (Q2 : k2 / 4 * (- 40000) <= k2 / 4 * (t * t - t * (ta + ta') - (ta * ta + ta * ta' + ta' * ta'))) by (apply Rmult_le_compat_l; lra).
    assert (Q3 : k1 * (- 200) <= k1 * (ta + ta')) by (apply Rmult_le_compat_l; lra).
    assert (0 < (ta' - ta) * (k0 + k1 * (ta + ta') / 2 + k2 / 4 * (t * t - t * (ta + ta') - (ta * ta + ta * ta' + ta' * ta')))).
    { apply Rmult_lt_0_compat; lra. }
    lra. }
  destruct u; [congruence|..]; apply G; lra.
Qed.

(** The Reynolds number. *)
Lemma reynolds_falls : 0 <= re ta' <= re ta /\ (0 < v -> re ta' < re ta).
Proof.
  destruct air_range as (A & A'). destruct (weather_valid w V) as (_ & _ & _ & Vs & _). fold v in Vs.
  unfold re. rewrite !reynolds_form by (try exact U; unfold film; lra).
  assert (F : -100 <= film ta < film ta') by (unfold film; lra).
  destruct (ratio_falls (film ta) (film ta') ltac:(lra) ltac:(lra)) as (R1 & R2).
  assert (P : Rpower (film ta + 273) (3 / 2) < Rpower (film ta' + 273) (3 / 2)) by (apply Rlt_Rpower_l; lra).
  assert (P0 : 0 < Rpower (film ta + 273) (3 / 2)) by apply exp_pos.
  assert (I : / Rpower (film ta' + 273) (3 / 2) < / Rpower (film ta + 273) (3 / 2)) by (apply Rinv_lt_contravar; [apply Rmult_lt_0_compat; lra|exact P]).
  assert (I0 : 0 < / Rpower (film ta' + 273) (3 / 2)) by (apply Rinv_0_lt_compat; lra).
  assert (M : air_ratio (film ta') * / Rpower (film ta' + 273) (3 / 2) < air_ratio (film ta) * / Rpower (film ta + 273) (3 / 2)) by (apply Rmult_le_0_lt_compat; lra).
  assert (M0 : 0 < air_ratio (film ta') * / Rpower (film ta' + 273) (3 / 2)) by (apply Rmult_lt_0_compat; lra).
  assert (DN := dnum_pos u e U). assert (VN := vnum_pos u).
  assert (C : 0 <= d * v * dnum u e / vnum u) by (apply Rmult_le_pos; [repeat apply Rmult_le_pos; lra|left; apply Rinv_0_lt_compat, VN]).
  split; [split|].
  - apply Rmult_le_pos; lra.
  - apply Rmult_le_compat_l; lra.
  - intros P1. apply Rmult_lt_compat_l; [|exact M]. apply Rdiv_lt_0_compat; [repeat apply Rmult_lt_0_compat|]; assumption.
Qed.

Lemma natural_falls :
  0 <= HeatConvectionNatural (N := RNum) u d w' (density_air (N := RNum) u e (film ta')) t <
  HeatConvectionNatural (N := RNum) u d w (density_air (N := RNum) u e (film ta)) t.
Proof.
  destruct air_range as (A & A'). rewrite !natural_R by exact U. fold ta ta'.
  assert (KN := knat_pos u). assert (DD := Rpow_frac_pos d (3 / 4) 0 ltac:(lra) D).
  assert (F : -100 <= film ta < film ta') by (unfold film; lra).
  assert (P1 := density_pos u e (film ta) U ltac:(lra)). assert (P2 := density_pos u e (film ta') U ltac:(lra)).
  assert (Q : density_air (N := RNum) u e (film ta') < density_air (N := RNum) u e (film ta)).
  { rewrite !density_R by exact U. fold (dnum u e). assert (DN := dnum_pos u e U).
    apply Rmult_lt_compat_l; [exact DN|]. apply Rinv_lt_contravar; [apply Rmult_lt_0_compat; lra|lra]. }
  assert (X : Rpow_c (density_air (N := RNum) u e (film ta')) (1 / 2) < Rpow_c (density_air (N := RNum) u e (film ta)) (1 / 2)) by (apply frac_lt; lra).
  assert (X0 := frac_pos (density_air (N := RNum) u e (film ta')) (1 / 2) ltac:(lra)).
  assert (Y : 0 <= Rpow_c (t - ta') (5 / 4) < Rpow_c (t - ta) (5 / 4)).
  { rewrite !(Rpow_frac _ (5 / 4) 1) by lra. destruct (Rlt_dec 0 (t - ta)) as [H|H]; [|lra].
    destruct Rlt_dec as [H'|H']; [|split; [lra|apply exp_pos]]. split; [left; apply exp_pos|apply Rlt_Rpower_l; lra]. }
  set (a := Rpow_c (density_air (N := RNum) u e (film ta)) (1 / 2)) in *. set (a' := Rpow_c (density_air (N := RNum) u e (film ta')) (1 / 2)) in *.
  set (b := Rpow_c (t - ta) (5 / 4)) in *. set (b' := Rpow_c (t - ta') (5 / 4)) in *. set (q := Rpow_c d (3 / 4)) in *. set (c := knat u) in *.
  replace (c * a' * q * b') with (c * q * (a' * b')) by ring. replace (c * a * q * b) with (c * q * (a * b)) by ring.
  assert (CQ : 0 < c * q) by (apply Rmult_lt_0_compat; assumption).
  split; [apply Rmult_le_pos; [lra|apply Rmult_le_pos; lra]|]. apply Rmult_lt_compat_l; [exact CQ|]. apply Rmult_le_0_lt_compat; lra.
Qed.

Lemma convection_hotter_air : convection (N := RNum) u d w t < convection (N := RNum) u d w' t.
Proof.
  destruct air_range as (A & A'). rewrite !convection_R by exact U. cbv zeta. rewrite EE. fold ta ta' e. fold (film ta) (film ta').
  rewrite !forced_R. cbv zeta. rewrite EA, ES. fold ta ta' v. fold (re ta) (re ta') (k ta) (k ta').
  destruct natural_falls as (N0 & N1).
  set (n := HeatConvectionNatural (N := RNum) u d w _ t) in *. set (n' := HeatConvectionNatural (N := RNum) u d w' _ t) in *.
  destruct (weather_valid w V) as (Va & _ & _ & Vs & _). fold v in Vs.
  assert (G := factor_pos _ (angle_range _ Va)). set (g := wind_factor _) in *.
  assert (KD := conduction_falls). assert (K1 := k_pos ta' ltac:(lra) L'). assert (K2 := k_pos ta ltac:(lra) ltac:(lra)).
  destruct reynolds_falls as (RR & RS).
  assert (KD0 : 0 <= k ta' * (t - ta')) by (apply Rmult_le_pos; lra).
  assert (X1 := frac_le (re ta') (re ta) (52 / 100) ltac:(lra) RR). assert (X2 := frac_le (re ta') (re ta) (6 / 10) ltac:(lra) RR).
  assert (Y1 := frac_pos (re ta') (52 / 100) ltac:(lra)). assert (Y2 := frac_pos (re ta') (6 / 10) ltac:(lra)).
  assert (Y3 := frac_pos (re ta) (6 / 10) ltac:(lra)).
  assert (Z : 0 < v -> 0 < Rpow_c (re ta) (6 / 10)).
  { intros P. specialize (RS P). apply (Rpow_frac_pos _ _ 0); lra. }
  set (p := Rpow_c (re ta) (52 / 100)) in *. set (p' := Rpow_c (re ta') (52 / 100)) in *. set (o := Rpow_c (re ta) (6 / 10)) in *. set (o' := Rpow_c (re ta') (6 / 10)) in *.
  set (q := k ta * (t - ta)) in *. set (q' := k ta' * (t - ta')) in *.
  assert (E1 : forall z : R, g * (101 / 100 + 135 / 100 * z) * k ta * (t - ta) = g * (101 / 100 + 135 / 100 * z) * q) by (intros z; unfold q; ring).
  assert (E1' : forall z : R, g * (101 / 100 + 135 / 100 * z) * k ta' * (t - ta') = g * (101 / 100 + 135 / 100 * z) * q') by (intros z; unfold q'; ring).
  assert (E2 : g * (754 / 1000) * o * k ta * (t - ta) = g * (754 / 1000) * (o * q)) by (unfold q; ring).
  assert (E2' : g * (754 / 1000) * o' * k ta' * (t - ta') = g * (754 / 1000) * (o' * q')) by (unfold q'; ring).
  rewrite E1, E1', E2, E2'. clear E1 E1' E2 E2'.
  assert (F1 : g * (101 / 100 + 135 / 100 * p') * q' < g * (101 / 100 + 135 / 100 * p) * q).
  { rewrite !Rmult_assoc. apply Rmult_lt_compat_l; [exact G|]. apply Rle_lt_trans with ((101 / 100 + 135 / 100 * p) * q'); [apply Rmult_le_compat_r; lra|apply Rmult_lt_compat_l; lra]. }
  assert (F2 : g * (754 / 1000) * (o' * q') < Rmax n (g * (754 / 1000) * (o * q))).
  { destruct (Rle_lt_or_eq_dec _ _ Vs) as [P|P].
    - eapply Rlt_le_trans; [|apply Rmax_r]. apply Rmult_lt_compat_l; [lra|].
      apply Rle_lt_trans with (o * q'); [apply Rmult_le_compat_r; lra|apply Rmult_lt_compat_l; [exact (Z P)|lra]].
    - eapply Rlt_le_trans; [|apply Rmax_l]. assert (O : o' = 0). { unfold o', re. rewrite <- P, Rmult_0_r. unfold Rdiv. rewrite Rmult_0_l. apply (Rpow_frac_0 _ 0). lra. }
      rewrite O, Rmult_0_l, Rmult_0_r. change (F RNum) with R in *. lra. }
  set (f1 := g * (101 / 100 + 135 / 100 * p) * q) in *. set (f1' := g * (101 / 100 + 135 / 100 * p') * q') in *.
  set (f2 := g * (754 / 1000) * (o * q)) in *. set (f2' := g * (754 / 1000) * (o' * q')) in *.
  change (F RNum) with R in *. clearbody f1 f1' f2 f2'. clear - N1 F1 F2.
  assert (Rmax n' (Rmax f1' f2') < Rmax n (Rmax f1 f2)); [|lra].
  revert F2. unfold Rmax. repeat destruct Rle_dec; lra.
Qed.
End Air.

(** ** Currents *)
Lemma amps_grow : forall (b b' : Cable RNum) (t : R) (s s' : HeatState RNum), cb_resistances b' = cb_resistances b ->
  0 < table_resistance (cb_resistances b) t -> (ht_resistance s : R) <= ht_resistance s' ->
  (amps b t s : R) <= amps b' t s' /\ ((ht_resistance s : R) < ht_resistance s' -> (amps b t s : R) < amps b' t s').
Proof.
  intros b b' t s s' ER P H.
  destruct (amps_square b t s P) as (A & B & C). assert (P' := P). rewrite <- ER in P'. destruct (amps_square b' t s' P') as (A' & B' & C'). rewrite ER in A'.
  set (r := table_resistance (cb_resistances b) t) in *. set (i := amps b t s) in *. set (i' := amps b' t s') in *.
  set (q := ht_resistance s) in *. set (q' := ht_resistance s') in *. change (F RNum) with R in (type of r), (type of i), (type of i'), (type of q), (type of q').
  clearbody r i i' q q'.
  assert (G : forall x y : R, 0 <= x -> 0 <= y -> x * x * r <= y * y * r -> x <= y).
  { intros x y X Y E. destruct (Rle_lt_dec x y) as [Q|Q]; [exact Q|]. exfalso. assert (y * y < x * x) by nra. nra. }
  assert (GS : forall x y : R, 0 <= x -> 0 <= y -> x * x * r < y * y * r -> x < y).
  { intros x y X Y E. destruct (Rlt_le_dec x y) as [Q|Q]; [exact Q|]. exfalso. assert (y * y <= x * x) by nra. nra. }
  unfold Rabs in A, A'. destruct (Rcase_abs q) as [N1|N1], (Rcase_abs q') as [N2|N2].
  - apply B in N1 as I1. apply B' in N2 as I2. split.
    + assert (- i' <= - i) by (apply G; try lra; nra). lra.
    + intros S. assert (- i' < - i) by (apply GS; try lra; nra). lra.
  - apply B in N1 as I1. assert (0 <= i') by (destruct (Rlt_le_dec i' 0) as [Z|Z]; [apply B' in Z; lra|exact Z]). split; [lra|intros; lra].
  - lra.
  - assert (0 <= i') by (destruct (Rlt_le_dec i' 0) as [Z|Z]; [apply B' in Z; lra|exact Z]).
    assert (0 <= i) by (destruct (Rlt_le_dec i 0) as [Z|Z]; [apply B in Z; lra|exact Z]). split.
    + apply G; lra.
    + intros S. apply GS; lra.
Qed.

(** Heat lost and taken in. *)
Lemma convection_harsher : forall u (d : R) (w w' : ThermalRatingWeather RNum) (t : R), u <> USNull -> 0 < d ->
  tw_Validate w = true -> tw_Validate w' = true -> harsher w w' -> tw_temperature_air w' <= t <= 1000 ->
  convection (N := RNum) u d w t <= convection (N := RNum) u d w' t /\
  ((tw_temperature_air w : R) < tw_temperature_air w' -> convection (N := RNum) u d w t < convection (N := RNum) u d w' t).
Proof.
  intros u d w w' t U D V V' [HA HS HG HV HE] T.
  destruct (weather_valid w V) as (Va & Ve & Vr & Vs & Vt). destruct (weather_valid w' V') as (Va' & Ve' & Vr' & Vs' & Vt').
  set (m := mkThermalRatingWeather (N := RNum) (tw_angle_wind w') (tw_elevation w) (tw_radiation_solar w) (tw_speed_wind w') (tw_temperature_air w)).
  assert (VM : tw_Validate m = true).
  { unfold tw_Validate, m. cbn. rn. rdec. reflexivity. }
  assert (S1 : convection (N := RNum) u d w t <= convection (N := RNum) u d m t).
  { destruct (Rle_lt_or_eq_dec (tw_temperature_air w) t ltac:(lra)) as [Q|Q].
    - apply (convection_windier u U d D m w t VM V); [constructor; cbn; lra|cbn; lra].
    - assert (E1 := convection_air u d w U). assert (E2 := convection_air u d m U). cbn [m tw_temperature_air] in E2. rewrite Q in E1, E2. rewrite E1, E2. apply Rle_refl. }
  assert (S2 : (tw_temperature_air w : R) < tw_temperature_air w' -> convection (N := RNum) u d m t < convection (N := RNum) u d w' t).
  { intros Q. apply (convection_hotter_air u U d D t (proj2 T) m w' VM V'); cbn; try reflexivity; lra. }
  destruct (Rle_lt_or_eq_dec _ _ HA) as [Q|Q].
  - specialize (S2 Q). change (F RNum) with R in *. split; [lra|intros _; lra].
  - split; [|intros; lra]. eapply Rle_trans; [exact S1|].
    destruct (Rle_lt_or_eq_dec (tw_temperature_air w) t ltac:(lra)) as [Q2|Q2].
    + apply (convection_windier u U d D w' m t V' VM); [constructor; cbn; lra|lra].
    + assert (E1 := convection_air u d w' U). assert (E2 := convection_air u d m U). cbn [m tw_temperature_air] in E2. rewrite <- Q, Q2 in E1. rewrite Q2 in E2. rewrite E1, E2. apply Rle_refl.
Qed.

Lemma radiation_harsher : forall u (b : Cable RNum) (w w' : ThermalRatingWeather RNum) (t : R), u <> USNull -> 0 <= cb_diameter b -> 0 <= cb_emissivity b ->
  -100 <= tw_temperature_air w -> (tw_temperature_air w : R) <= tw_temperature_air w' -> radiation (N := RNum) u b w t <= radiation (N := RNum) u b w' t.
Proof.
  intros u b w w' t U D E A H. rewrite !radiation_R by exact U. assert (K := krad_pos u).
  assert (Q : ((tw_temperature_air w + 273) / 100) * ((tw_temperature_air w + 273) / 100) * (((tw_temperature_air w + 273) / 100) * ((tw_temperature_air w + 273) / 100)) <=
    ((tw_temperature_air w' + 273) / 100) * ((tw_temperature_air w' + 273) / 100) * (((tw_temperature_air w' + 273) / 100) * ((tw_temperature_air w' + 273) / 100))).
  { destruct (Rle_lt_or_eq_dec _ _ H) as [L|L]; [left; apply fourth_lt; lra|rewrite L; apply Rle_refl]. }
  apply Ropp_le_contravar. apply Rmult_le_compat_l; [repeat apply Rmult_le_pos; lra|]. lra.
Qed.

Lemma solar_R : forall (b : Cable RNum) w, solar (N := RNum) b w = cb_absorptivity b * tw_radiation_solar w * cb_diameter b.
Proof. intros b w. unfold solar. rn. rring. Qed.

Lemma sums_resistance : forall (b : Cable RNum) u w (t : R), ht_resistance (sums b u w t) =
  - (convection (N := RNum) u (cb_diameter b) w t + radiation (N := RNum) u b w t + solar (N := RNum) b w).
Proof. intros b u w t. unfold sums. cbn [ht_resistance]. rn. rring. Qed.

Lemma rating_harsher : forall (b : Cable RNum) u (w w' : ThermalRatingWeather RNum) (t : R),
  trc_Validate (mkThermalRatingCable (Some b)) = true -> u <> USNull -> tw_Validate w = true -> tw_Validate w' = true ->
  harsher w w' -> tw_temperature_air w' <= t <= 1000 -> 0 < table_resistance (cb_resistances b) t ->
  let current v := omap fst (sc_Current (sc_fresh (N := RNum) (Some (mkThermalRatingCable (Some b))) t u (Some v))) in
  exists i i' : R, current w = Ok i /\ current w' = Ok i' /\ i' <= i /\
    ((tw_temperature_air w : R) < tw_temperature_air w' \/ ((tw_radiation_solar w : R) < tw_radiation_solar w' /\ 0 < cb_absorptivity b) -> i' < i).
Proof.
  intros b u w w' t C U V V' H T P current.
  destruct (fresh_answers b u w t C V U) as (E & _). destruct (fresh_answers b u w' t C V' U) as (E' & _).
  exists (amps b t (sums b u w t)), (amps b t (sums b u w' t)). split; [exact E|]. split; [exact E'|].
  destruct (cable_valid b C) as (D & AB & EM & _). destruct (weather_valid w V) as (_ & _ & Vr & _ & Vt).
  destruct (convection_harsher u (cb_diameter b) w w' t U D V V' H T) as (C1 & C2). destruct H as [HA HS HG HV HE].
  assert (RH := radiation_harsher u b w w' t U ltac:(lra) ltac:(lra) ltac:(lra) HA).
  assert (SO : (solar (N := RNum) b w : R) <= solar (N := RNum) b w' /\ ((tw_radiation_solar w : R) < tw_radiation_solar w' /\ 0 < cb_absorptivity b -> (solar (N := RNum) b w : R) < solar (N := RNum) b w')).
  { rewrite !solar_R. split; [apply Rmult_le_compat_r; [lra|apply Rmult_le_compat_l; lra]|]. intros (S1 & S2). apply Rmult_lt_compat_r; [lra|apply Rmult_lt_compat_l; lra]. }
  assert (G := amps_grow b b t (sums b u w' t) (sums b u w t) eq_refl P). rewrite !sums_resistance in G.
  destruct SO as (SO1 & SO2). change (F RNum) with R in *. destruct G as (G1 & G2); [lra|]. split; [exact G1|].
  intros [Q|Q]; [specialize (C2 Q)|specialize (SO2 Q)]; apply G2; lra.
Qed.

Lemma rating_duller : forall (b b' : Cable RNum) u (w : ThermalRatingWeather RNum) (t : R),
  trc_Validate (mkThermalRatingCable (Some b)) = true -> trc_Validate (mkThermalRatingCable (Some b')) = true -> u <> USNull -> tw_Validate w = true ->
  duller b b' -> tw_temperature_air w <= t -> 0 < table_resistance (cb_resistances b) t ->
  let current c := omap fst (sc_Current (sc_fresh (N := RNum) (Some (mkThermalRatingCable (Some c))) t u (Some w))) in
  exists i i' : R, current b = Ok i /\ current b' = Ok i' /\ i' <= i /\
    (((cb_absorptivity b : R) < cb_absorptivity b' /\ 0 < tw_radiation_solar w) \/ ((cb_emissivity b' : R) < cb_emissivity b /\ tw_temperature_air w < t) -> i' < i).
Proof.
  intros b b' u w t C C' U V [HA HE HD HR] T P current.
  destruct (fresh_answers b u w t C V U) as (E & _). destruct (fresh_answers b' u w t C' V U) as (E' & _).
  exists (amps b t (sums b u w t)), (amps b' t (sums b' u w t)). split; [exact E|]. split; [exact E'|].
  destruct (cable_valid b C) as (D & AB & EM & _). destruct (weather_valid w V) as (_ & _ & Vr & _ & Vt).
  assert (K := krad_pos u).
  assert (RD : (radiation (N := RNum) u b w t : R) <= radiation (N := RNum) u b' w t /\ ((cb_emissivity b' : R) < cb_emissivity b /\ tw_temperature_air w < t -> (radiation (N := RNum) u b w t : R) < radiation (N := RNum) u b' w t)).
  { rewrite !radiation_R by exact U. rewrite HD.
    assert (F0 : tw_temperature_air w < t -> 0 < (t + 273) / 100 * ((t + 273) / 100) * ((t + 273) / 100 * ((t + 273) / 100)) - (tw_temperature_air w + 273) / 100 * ((tw_temperature_air w + 273) / 100) * ((tw_temperature_air w + 273) / 100 * ((tw_temperature_air w + 273) / 100))).
    { intros Q. assert (Z := fourth_lt ((tw_temperature_air w + 273) / 100) ((t + 273) / 100) ltac:(lra)). lra. }
    assert (F1 : 0 <= (t + 273) / 100 * ((t + 273) / 100) * ((t + 273) / 100 * ((t + 273) / 100)) - (tw_temperature_air w + 273) / 100 * ((tw_temperature_air w + 273) / 100) * ((tw_temperature_air w + 273) / 100 * ((tw_temperature_air w + 273) / 100))).
    { destruct (Rle_lt_or_eq_dec _ _ T) as [Q|Q]; [specialize (F0 Q); lra|rewrite Q; lra]. }
    set (z := _ - _) in F0, F1. fold z. clearbody z. assert (KD : 0 < krad u * cb_diameter b) by (apply Rmult_lt_0_compat; lra). split.
    - apply Ropp_le_contravar. apply Rmult_le_compat_r; [exact F1|]. apply Rmult_le_compat_l; lra.
    - intros (Q1 & Q2). apply Ropp_lt_contravar. apply Rmult_lt_compat_r; [exact (F0 Q2)|]. apply Rmult_lt_compat_l; lra. }
  assert (SO : (solar (N := RNum) b w : R) <= solar (N := RNum) b' w /\ ((cb_absorptivity b : R) < cb_absorptivity b' /\ 0 < tw_radiation_solar w -> (solar (N := RNum) b w : R) < solar (N := RNum) b' w)).
  { rewrite !solar_R, HD. split; [apply Rmult_le_compat_r; [lra|apply Rmult_le_compat_r; lra]|]. intros (S1 & S2). apply Rmult_lt_compat_r; [lra|apply Rmult_lt_compat_r; lra]. }
  assert (P' := P). rewrite <- HR in P'.
  assert (G := amps_grow b' b t (sums b' u w t) (sums b u w t) (eq_sym HR) P'). rewrite !sums_resistance, HD in G.
  destruct SO as (SO1 & SO2). destruct RD as (RD1 & RD2). change (F RNum) with R in *. destruct G as (G1 & G2); [lra|]. split; [exact G1|].
  intros [Q|Q]; [specialize (SO2 Q)|specialize (RD2 Q)]; apply G2; lra.
Qed.

Lemma rating_weather : forall (b : Cable RNum) u (w w' : ThermalRatingWeather RNum) (t r : R), let c := mkThermalRatingCable (Some b) in
  trc_Validate c = true -> u <> USNull -> tw_Validate w = true -> tw_Validate w' = true ->
  harsher w w' -> tw_temperature_air w' <= t <= 1000 -> trc_Resistance c t = Ok r -> 0 < r ->
  let current v := omap fst (sc_Current (sc_fresh (N := RNum) (Some c) t u (Some v))) in
  exists i i' : R, current w = Ok i /\ current w' = Ok i' /\ i' <= i /\
    ((tw_temperature_air w : R) < tw_temperature_air w' \/ ((tw_radiation_solar w : R) < tw_radiation_solar w' /\ 0 < cb_absorptivity b) -> i' < i).
Proof. intros b u w w' t r c C U V V' H T Er P. injection Er as <-. apply (rating_harsher b u w w' t); assumption. Qed.

Lemma rating_surface : forall (b b' : Cable RNum) u (w : ThermalRatingWeather RNum) (t r : R),
  trc_Validate (mkThermalRatingCable (Some b)) = true -> trc_Validate (mkThermalRatingCable (Some b')) = true -> u <> USNull -> tw_Validate w = true ->
  duller b b' -> tw_temperature_air w <= t -> trc_Resistance (mkThermalRatingCable (Some b)) t = Ok r -> 0 < r ->
  let current c := omap fst (sc_Current (sc_fresh (N := RNum) (Some (mkThermalRatingCable (Some c))) t u (Some w))) in
  exists i i' : R, current b = Ok i /\ current b' = Ok i' /\ i' <= i /\
    (((cb_absorptivity b : R) < cb_absorptivity b' /\ 0 < tw_radiation_solar w) \/ ((cb_emissivity b' : R) < cb_emissivity b /\ tw_temperature_air w < t) -> i' < i).
Proof. intros b b' u w t r C C' U V H T Er P. injection Er as <-. apply (rating_duller b b' u w t); assumption. Qed.
