(** Unit loads in other units and in other weather, in exact arithmetic. *)
From Coq Require Import ZArith Bool List Reals Lra Psatz.
From Verif Require Import Num NumFacts ModelBase ModelLoad SpecScale3 ProofReal ProofLoad ProofScale3.
Open Scope R_scope.

(** [w'] is the weather [w] with lengths multiplied by [l] and forces by [m]. *)
Definition weather_in (l m : R) (w w' : WeatherLoadCase RNum) : Prop :=
  (wl_thickness_ice w' : R) = l * wl_thickness_ice w /\ (wl_pressure_wind w' : R) = m / (l * l) * wl_pressure_wind w /\
  (wl_density_ice w' : R) = m / (l * l * l) * wl_density_ice w.

(** C182: with all lengths of cable and weather multiplied by [l] and all forces by [m], as in
    other units, the load per length is multiplied by [m / l]. *)
Theorem unit_cable_load_units : forall (mem mem' : Doubles RNum) s s' (w w' : WeatherLoadCase RNum) (l m : R) a b a' b',
  0 < l -> 0 < m -> weather_in l m w w' ->
  ul_diameter s = Some a -> ul_weight s = Some b -> ul_diameter s' = Some a' -> ul_weight s' = Some b' ->
  (mem' a' : R) = l * mem a -> (mem' b' : R) = m / l * mem b ->
  exists v v', UnitCableLoad (N := RNum) mem s w = Ok v /\ UnitCableLoad (N := RNum) mem' s' w' = Ok v' /\ multiple3 (m / l) v v'.
Proof.
  intros mem mem' s s' w w' l m a b a' b' Hl Hm (W1 & W2 & W3) A B A' B' Ea Eb.
  do 2 eexists. split; [exact (unit_load_value mem s w a b A B)|]. split; [exact (unit_load_value mem' s' w' a' b' A' B')|].
  unfold multiple3, ring. cbn [v3x v3y v3z]. rewrite W1, W2, W3, Ea, Eb.
  generalize (mem a : R) (mem b : R) (wl_thickness_ice w : R) (wl_pressure_wind w : R) (wl_density_ice w : R) K.
  intros. repeat split; field; lra.
Qed.
Print Assumptions unit_cable_load_units.

(** A cable of 1/12 ft and 1.5 lb/ft in ice of 1/12 ft, 4 lb/ft^2 and 57 lb/ft^3, and twice the lengths. *)
Example unit_cable_load_units_case : let mem := (fun a => if Z.eqb a 1 then 1 / 12 else 3 / 2) : Doubles RNum in
  let mem' := (fun a => if Z.eqb a 7 then 1 / 6 else 9 / 4) : Doubles RNum in
  weather_in 2 3 (mkWeatherLoadCase (N := RNum) 57 4 32 (1 / 12)) (mkWeatherLoadCase (N := RNum) (3 / (2 * 2 * 2) * 57) 3 32 (1 / 6)) /\
  (mem' 7%Z : R) = 2 * mem 1%Z /\ (mem' 9%Z : R) = 3 / 2 * mem 2%Z.
Proof. cbv zeta. unfold weather_in. cbn. repeat split; lra. Qed.

(** C183: the vertical load grows with the density of the ice and does not depend on the wind;
    the transverse load is proportional to the pressure of the wind and does not depend on the
    density; iced, both loads of a thicker cable are higher. *)
Theorem unit_cable_load_parts : forall (mem mem' : Doubles RNum) s s' (w w' : WeatherLoadCase RNum) v v' a b a' b',
  ul_Validate (N := RNum) mem s = true -> ul_Validate (N := RNum) mem' s' = true ->
  WeatherLoadCase_Validate w = true -> WeatherLoadCase_Validate w' = true ->
  ul_diameter s = Some a -> ul_weight s = Some b -> ul_diameter s' = Some a' -> ul_weight s' = Some b' ->
  UnitCableLoad (N := RNum) mem s w = Ok v -> UnitCableLoad (N := RNum) mem' s' w' = Ok v' ->
  wl_thickness_ice w = wl_thickness_ice w' ->
  ((mem a : R) = mem' a' -> (wl_pressure_wind w : R) * v3y v' = wl_pressure_wind w' * v3y v) /\
  ((mem a : R) = mem' a' -> (mem b : R) = mem' b' -> wl_density_ice w = wl_density_ice w' -> (v3z v : R) = v3z v') /\
  ((mem a : R) <= mem' a' -> (mem b : R) <= mem' b' -> (wl_density_ice w : R) <= wl_density_ice w' -> (v3z v : R) <= v3z v' /\
     (0 < wl_thickness_ice w -> (wl_density_ice w : R) < wl_density_ice w' -> (v3z v : R) < v3z v')) /\
  ((mem a : R) <= mem' a' -> (wl_pressure_wind w : R) <= wl_pressure_wind w' -> (v3y v : R) <= v3y v').
Proof.
  intros mem mem' s s' w w' v v' a b a' b' V V' W W' A B A' B' E E' T.
  rewrite (unit_load_value mem s w a b A B) in E. rewrite (unit_load_value mem' s' w' a' b' A' B') in E'. injection E as <-. injection E' as <-.
  destruct (valid_facts mem s w V W) as (a0 & b0 & X1 & X2 & P1 & P2 & P3 & P4 & P5). rewrite A in X1. rewrite B in X2. injection X1 as <-. injection X2 as <-.
  destruct (valid_facts mem' s' w' V' W') as (a0 & b0 & X1 & X2 & Q1 & Q2 & Q3 & Q4 & Q5). rewrite A' in X1. rewrite B' in X2. injection X1 as <-. injection X2 as <-.
  cbn [v3x v3y v3z]. rewrite <- T in *. unfold ring.
  assert (HK : 0 < K) by (unfold K; lra).
  revert HK P1 P2 P3 P4 P5 Q1 Q2 Q3 Q4 Q5. generalize (mem a : R) (mem b : R) (mem' a' : R) (mem' b' : R) (wl_thickness_ice w : R) (wl_pressure_wind w : R) (wl_density_ice w : R)
    (wl_pressure_wind w' : R) (wl_density_ice w' : R) K. clear. intros d g d' g' t p r p' r' k HK P1 P2 P3 P4 P5 Q1 Q2 Q3 Q4 Q5. change (F RNum) with R in *.
  assert (S : forall r d, r * (k * ((d / 2 + t) * (d / 2 + t)) - k * (d / 2 * (d / 2))) = r * (k * (t * (d + t)))) by (intros; field).
  rewrite !S.
  split; [intros ->; ring|]. split; [intros -> -> ->; reflexivity|]. split.
  - intros D G H. assert (C : 0 <= k * (t * (d + t)) <= k * (t * (d' + t))).
    { split; [apply Rmult_le_pos; [lra|]; apply Rmult_le_pos; lra|]. apply Rmult_le_compat_l; [lra|]. apply Rmult_le_compat_l; lra. }
    assert (C2 : r * (k * (t * (d + t))) <= r' * (k * (t * (d + t)))) by (apply Rmult_le_compat_r; lra).
    assert (C3 : r' * (k * (t * (d + t))) <= r' * (k * (t * (d' + t)))) by (apply Rmult_le_compat_l; lra).
    split; [lra|]. intros T0 H'. assert (C4 : 0 < k * (t * (d + t))) by (repeat apply Rmult_lt_0_compat; lra).
    assert (C5 : r * (k * (t * (d + t))) < r' * (k * (t * (d + t)))) by (apply Rmult_lt_compat_r; lra). lra.
  - intros D H. apply Rmult_le_compat; lra.
Qed.
Print Assumptions unit_cable_load_parts.

Example unit_cable_load_parts_case : let mem := (fun a => if Z.eqb a 1 then 1 / 12 else 3 / 2) : Doubles RNum in
  let s := mkUnitLoadSolver (Some 1%Z) (Some 2%Z) in
  let w := mkWeatherLoadCase (N := RNum) 30 4 32 (1 / 12) in let w' := mkWeatherLoadCase (N := RNum) 57 9 32 (1 / 12) in
  ul_Validate (N := RNum) mem s = true /\ WeatherLoadCase_Validate w = true /\ WeatherLoadCase_Validate w' = true /\
  0 < wl_thickness_ice w /\ wl_density_ice w < wl_density_ice w' /\ wl_pressure_wind w < wl_pressure_wind w'.
Proof.
  cbv zeta.
  assert (Hr : forall x y : R, y <= x -> negb (fltb (n := RNum) x y) = true).
  { intros x y H. apply negb_true_iff. apply Rltb_false. lra. }
  assert (Hl : forall x y : R, y < x -> negb (fleb (n := RNum) x y) = true).
  { intros x y H. apply negb_true_iff. apply Rleb_false. lra. }
  split. { unfold ul_Validate, bad_double. cbn [ul_diameter ul_weight]. rewrite !Hl; [reflexivity|rn; simpl; lra|rn; simpl; lra]. }
  split. { unfold WeatherLoadCase_Validate. cbn [wl_density_ice wl_pressure_wind wl_temperature_cable wl_thickness_ice].
           rewrite !Hr; [reflexivity|..]; rn; lra. }
  split. { unfold WeatherLoadCase_Validate. cbn [wl_density_ice wl_pressure_wind wl_temperature_cable wl_thickness_ice].
           rewrite !Hr; [reflexivity|..]; rn; lra. }
  cbn. lra.
Qed.
