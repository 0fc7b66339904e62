(** Proofs for C194: the steady current at a higher cable temperature. *)
From Coq Require Import ZArith Bool List Reals Lra Psatz.
From Verif Require Import Num NumFacts ModelBase ModelCable ModelThermal SpecThermal
  ProofReal ProofThermalReal ProofThermal ProofThermalCases ProofHeatMono ProofRating.
Import ListNotations.
Open Scope R_scope.

Lemma radiation_falls : forall u (b : Cable RNum) (w : ThermalRatingWeather RNum) (t t' : R), u <> USNull ->
  0 <= cb_diameter b -> 0 <= cb_emissivity b -> -273 < t -> t < t' ->
  radiation (N := RNum) u b w t' <= radiation (N := RNum) u b w t.
Proof.
  intros u b w t t' U D E H H'. rewrite !radiation_R by exact U.
  assert (G := fourth_lt ((t + 273) / 100) ((t' + 273) / 100) ltac:(lra)).
  assert (P : 0 <= krad u * cb_diameter b * cb_emissivity b) by (assert (K := krad_pos u); repeat apply Rmult_le_pos; lra).
  assert (L := Rmult_le_compat_l _ _ _ P (Rlt_le _ _ G)). lra.
Qed.

Lemma heat_grows : forall (b : Cable RNum) u (w : ThermalRatingWeather RNum) (t t' : R),
  trc_Validate (mkThermalRatingCable (Some b)) = true -> u <> USNull -> tw_Validate w = true ->
  tw_temperature_air w <= t -> t < t' -> t' <= 1000 ->
  (ht_resistance (sums b u w t) : R) < ht_resistance (sums b u w t').
Proof.
  intros b u w t t' C U V L1 L2 L3. destruct (cable_valid b C) as (D & AB & EM & _).
  destruct (weather_valid w V) as (_ & _ & _ & _ & Vt). rewrite !sums_resistance.
  assert (X := convection_falls u U (cb_diameter b) D w V t t' L1 L2 L3).
  assert (Y := radiation_falls u b w t t' U ltac:(lra) ltac:(lra) ltac:(lra) L2).
  change (F RNum) with R in *. lra.
Qed.

Lemma rating_limit : forall (b : Cable RNum) u (w : ThermalRatingWeather RNum) (t t' r r' : R), let c := mkThermalRatingCable (Some b) in
  trc_Validate c = true -> u <> USNull -> tw_Validate w = true ->
  tw_temperature_air w <= t -> t < t' -> t' <= 1000 ->
  trc_Resistance c t = Ok r -> trc_Resistance c t' = Ok r' -> 0 < r -> 0 < r' ->
  let current x := omap fst (sc_Current (sc_fresh (N := RNum) (Some c) x u (Some w))) in
  exists i i' : R, current t = Ok i /\ current t' = Ok i' /\
    (0 <= i -> 0 < i' /\ i * i * r < i' * i' * r' /\ (r' <= r -> i < i')) /\
    (i < 0 -> r <= r' -> i < i').
Proof.
  intros b u w t t' r r' c C U V L1 L2 L3 Er Er' P P' current.
  injection Er as Er. injection Er' as Er'. change (F RNum) with R in *. rewrite <- Er in P. rewrite <- Er' in P'.
  destruct (fresh_answers b u w t C V U) as (E & _). destruct (fresh_answers b u w t' C V U) as (E' & _).
  exists (amps b t (sums b u w t)), (amps b t' (sums b u w t')). split; [exact E|]. split; [exact E'|].
  assert (G := heat_grows b u w t t' C U V L1 L2 L3).
  destruct (amps_square b t (sums b u w t) P) as (A1 & A2 & A3).
  destruct (amps_square b t' (sums b u w t') P') as (B1 & B2 & B3).
  rewrite Er in A1, P. rewrite Er' in B1, P'.
  set (i := amps b t (sums b u w t)) in *. set (i' := amps b t' (sums b u w t')) in *.
  set (q := ht_resistance (sums b u w t)) in *. set (q' := ht_resistance (sums b u w t')) in *.
  change (F RNum) with R in *. change (F RNum) with R in (type of i), (type of i'), (type of q), (type of q').
  clearbody i i' q q'. clear E E' current Er Er'. split.
  - intros I. assert (Q : 0 <= q). { destruct (Rle_or_lt 0 q) as [Q|Q]; [exact Q|]. apply A2 in Q. lra. }
    rewrite Rabs_pos_eq in A1, B1 by lra. assert (I' : 0 < i') by (apply B3; lra).
    split; [exact I'|]. split; [lra|]. intros RR.
    destruct (Rlt_or_le i i') as [Z|Z]; [exact Z|]. exfalso.
    assert (i' * i' <= i * i) by nra.
    assert (i' * i' * r' <= i * i * r) by (apply Rmult_le_compat; nra). lra.
  - intros I RR. assert (Q : q < 0) by (apply A2; exact I).
    destruct (Rle_or_lt 0 i') as [Z|Z]; [lra|].
    assert (Q' : q' < 0) by (apply B2; exact Z).
    rewrite Rabs_left in A1, B1 by assumption.
    destruct (Rlt_or_le i i') as [Y|Y]; [exact Y|]. exfalso.
    assert (i * i <= i' * i') by nra.
    assert (i * i * r <= i' * i' * r') by (apply Rmult_le_compat; nra). lra.
Qed.

(** A cable whose resistance at 100 degrees is k times that at 50 degrees. *)
Definition steep (k : R) : Cable RNum := cable_of [rpt 50 1; rpt 100 k].

Lemma steep_valid : forall k, trc_Validate (mkThermalRatingCable (Some (steep k))) = true.
Proof.
  intros k. unfold trc_Validate, Cable_Validate, component_valid, CableComponent_Validate, steep, cable_of, part, rpt.
  cbn. rn. rdec. reflexivity.
Qed.

Lemma steep_resistance : forall k t : R,
  table_resistance (N := RNum) (cb_resistances (steep k)) t = 1 + (k - 1) / 50 * (t - 50).
Proof.
  intros k t. assert (A := resistance_api (steep k) (rpt 50 1) (rpt 100 k) [] t (steep_valid k) eq_refl).
  destruct A as (_ & A). specialize (A (or_introl eq_refl)). injection A as A.
  etransitivity; [exact A|]. cbn [interpolated]. unfold line_at, rpt. cbn. field.
Qed.

Lemma rating_limit_refuted : exists (b : Cable RNum) u (w : ThermalRatingWeather RNum) (t t' i i' r r' : R), let c := mkThermalRatingCable (Some b) in
  let current x := omap fst (sc_Current (sc_fresh (N := RNum) (Some c) x u (Some w))) in
  trc_Validate c = true /\ u <> USNull /\ tw_Validate w = true /\
  tw_temperature_air w <= t /\ t < t' /\ t' <= 1000 /\
  trc_Resistance c t = Ok r /\ trc_Resistance c t' = Ok r' /\ 0 < r < r' /\
  current t = Ok i /\ current t' = Ok i' /\ 0 < i' < i.
Proof.
  set (q := fun x : R => ht_resistance (sums base2 Metric (calm 0) x) : R).
  set (k := 2 * (q 100 / q 50)).
  assert (U : Metric <> USNull) by discriminate.
  assert (W : tw_Validate (calm 0) = true) by (apply calm_valid; lra).
  assert (Q0 : q 0 = 0).
  { unfold q. assert (S := sums_air base2 Metric (calm 0) U). change (tw_temperature_air (calm 0)) with (0 : R) in S. rewrite S. cbn. ring. }
  assert (Q1 : q 0 < q 50) by (apply heat_grows; auto using base2_valid; cbn; lra).
  assert (Q2 : q 50 < q 100) by (apply heat_grows; auto using base2_valid; cbn; lra).
  assert (K : 2 < k).
  { unfold k. assert (1 < q 100 / q 50); [|lra]. apply (Rmult_lt_reg_r (q 50)); [lra|].
    replace (q 100 / q 50 * q 50) with (q 100) by (field; lra). lra. }
  assert (KE : k * q 50 = 2 * q 100) by (unfold k; field; lra).
  assert (R1 : table_resistance (N := RNum) (cb_resistances (steep k)) (50 : R) = 1) by (rewrite steep_resistance; rfield).
  assert (R2 : table_resistance (N := RNum) (cb_resistances (steep k)) (100 : R) = k) by (rewrite steep_resistance; rfield).
  destruct (fresh_answers (steep k) Metric (calm 0) 50 (steep_valid k) W U) as (E & _).
  destruct (fresh_answers (steep k) Metric (calm 0) 100 (steep_valid k) W U) as (E' & _).
  change (sums (steep k) Metric (calm 0) 50) with (sums base2 Metric (calm 0) 50) in E.
  change (sums (steep k) Metric (calm 0) 100) with (sums base2 Metric (calm 0) 100) in E'.
  exists (steep k), Metric, (calm 0), 50, 100.
  exists (amps (steep k) (50 : R) (sums base2 Metric (calm 0) (50 : R))), (amps (steep k) (100 : R) (sums base2 Metric (calm 0) (100 : R))), 1, k.
  split; [apply steep_valid|]. split; [exact U|]. split; [exact W|].
  split; [cbn; lra|]. split; [lra|]. split; [lra|].
  split; [unfold trc_Resistance; cbn [deref obind trc_base]; f_equal; exact R1|].
  split; [unfold trc_Resistance; cbn [deref obind trc_base]; f_equal; exact R2|].
  split; [lra|]. split; [exact E|]. split; [exact E'|].
  destruct (amps_square (steep k) (50 : R) (sums base2 Metric (calm 0) (50 : R))) as (A1 & _ & A3); [rewrite R1; lra|].
  destruct (amps_square (steep k) (100 : R) (sums base2 Metric (calm 0) (100 : R))) as (B1 & _ & B3); [rewrite R2; lra|].
  rewrite R1 in A1. rewrite R2 in B1. fold (q 50) in A1, A3. fold (q 100) in B1, B3.
  set (i := amps (steep k) 50 _) in *. set (i' := amps (steep k) 100 _) in *.
  change (F RNum) with R in (type of i), (type of i').
  assert (I : 0 < i) by (apply A3; lra). assert (I' : 0 < i') by (apply B3; lra).
  rewrite Rabs_pos_eq in A1, B1 by lra. clearbody i i' k. split; [exact I'|].
  destruct (Rlt_or_le i' i) as [Z|Z]; [exact Z|]. exfalso.
  assert (i * i <= i' * i') by nra. nra.
Qed.
