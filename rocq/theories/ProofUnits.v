(** Proofs about the unit conversions in exact real arithmetic. *)
From Coq Require Import ZArith Bool List Reals Lra Lia Psatz.
From Verif Require Import Num NumFacts ModelBase ProofReal SpecUnits.
Open Scope R_scope.

Notation cv := (Convert (N := RNum)).

Lemma Convert_R : forall v f e b,
  cv v f (@fofZ RNum e) b = if b then v * powerRZ f e else v * / powerRZ f e.
Proof.
  intros v f e b. unfold Convert. rn. rewrite Rpow_c_Z. destruct b; [reflexivity|].
  unfold Rdiv. rewrite Rmult_1_l. reflexivity.
Qed.

Lemma powerRZ_nz : forall f e, f <> 0 -> powerRZ f e <> 0.
Proof. intros. apply powerRZ_NOR. assumption. Qed.

Lemma Convert_size : forall v a b f e n, 0 < a -> 0 < b -> f = a / b ->
  same_quantity a b e n v (cv v f (@fofZ RNum e) n).
Proof.
  intros v a b f e n Ha Hb ->. rewrite Convert_R. unfold same_quantity.
  assert (powerRZ a e <> 0) by (apply powerRZ_nz; lra).
  assert (powerRZ b e <> 0) by (apply powerRZ_nz; lra).
  assert (P : powerRZ (a / b) e = powerRZ a e / powerRZ b e).
  { unfold Rdiv. rewrite powerRZ_mult. f_equal. rewrite powerRZ_inv'. reflexivity. }
  rewrite P. destruct n; field; auto.
Qed.

Lemma same_quantity_back : forall a b e n v v' v'', 0 < a -> 0 < b ->
  same_quantity a b e n v v' -> same_quantity b a e n v' v'' -> v'' = v.
Proof.
  intros a b e n v v' v'' Ha Hb H1 H2.
  assert (A : powerRZ a e <> 0) by (apply powerRZ_nz; lra).
  assert (B : powerRZ b e <> 0) by (apply powerRZ_nz; lra).
  destruct n; cbn [same_quantity] in *; rewrite H2 in H1.
  - apply Rmult_eq_reg_r in H1; auto.
  - unfold Rdiv in H1. apply Rmult_eq_reg_r in H1; auto. apply Rinv_neq_0_compat; auto.
Qed.

Ltac units_const := rewrite ?kPi_val; unfold kLengthCentimetersToMeters, kLengthFeetToInches,
  kLengthFeetToMeters, kLengthFeetToMiles, kLengthInchesToFeet, kLengthKilometersToMeters,
  kLengthMetersToCentimeters, kLengthMetersToFeet, kLengthMetersToKilometers,
  kLengthMetersToMillimeters, kLengthMilesToFeet, kLengthMillimetersToMeters,
  kForceNewtonsToPounds, kForcePoundsToNewtons, kStressMegaPascalToPascal,
  kStressPascalToMegaPascal, kStressPascalToPsf, kStressPsfToPascal, kStressPsfToPsi,
  kStressPsiToPsf, kAngleDegreesToRadians, kAngleRadiansToDegrees,
  centimeter, foot, inch, mile, meter, kilometer, millimeter, newton, pound,
  pascal, megapascal, psi, psf, pi_code; rewrite ?kPi_val; unfold fofZ; rewrite ?flit_R;
  cbn [fdiv RNum]; simpl powerRZ.

Lemma length_quantity : forall v t e n a b, length_sizes t = Some (a, b) ->
  same_quantity a b e n v (ConvertLength (N := RNum) v t e n).
Proof.
  intros v t e n a b H. destruct t; cbn in H; try discriminate; injection H as <- <-;
    unfold ConvertLength; apply Convert_size; try (units_const; lra); units_const; first [lra | req; field | req; field; lra].
Qed.

Lemma force_quantity : forall v t e n a b, force_sizes t = Some (a, b) ->
  same_quantity a b e n v (ConvertForce (N := RNum) v t e n).
Proof.
  intros v t e n a b H. destruct t; cbn in H; try discriminate; injection H as <- <-;
    unfold ConvertForce; apply Convert_size; try (units_const; lra); units_const; first [lra | req; field | req; field; lra].
Qed.

Lemma stress_quantity : forall v t e n a b, stress_sizes t = Some (a, b) ->
  same_quantity a b e n v (ConvertStress (N := RNum) v t e n).
Proof.
  intros v t e n a b H. destruct t; cbn in H; try discriminate; injection H as <- <-;
    unfold ConvertStress; apply Convert_size; try (units_const; lra); units_const; first [lra | req; field | req; field; lra].
Qed.

Lemma angle_quantity : forall v t e n a b, angle_sizes t = Some (a, b) ->
  same_quantity a b e n v (ConvertAngle (N := RNum) v t e n).
Proof.
  intros v t e n a b H. destruct t; cbn in H; try discriminate; injection H as <- <-;
    unfold ConvertAngle; apply Convert_size; try (units_const; lra); units_const; first [lra | req; field | req; field; lra].
Qed.

Lemma size_pos_length : forall t a b, length_sizes t = Some (a, b) -> 0 < a /\ 0 < b.
Proof. intros t a b H. destruct t; cbn in H; try discriminate; injection H as <- <-; units_const; lra. Qed.
Lemma size_pos_force : forall t a b, force_sizes t = Some (a, b) -> 0 < a /\ 0 < b.
Proof. intros t a b H. destruct t; cbn in H; try discriminate; injection H as <- <-; units_const; lra. Qed.
Lemma size_pos_stress : forall t a b, stress_sizes t = Some (a, b) -> 0 < a /\ 0 < b.
Proof. intros t a b H. destruct t; cbn in H; try discriminate; injection H as <- <-; units_const; lra. Qed.
Lemma size_pos_angle : forall t a b, angle_sizes t = Some (a, b) -> 0 < a /\ 0 < b.
Proof. intros t a b H. destruct t; cbn in H; try discriminate; injection H as <- <-; units_const; lra. Qed.

Lemma all_quantities : forall (v : R) e n a b,
  (forall t, length_sizes t = Some (a, b) -> same_quantity a b e n v (ConvertLength (N := RNum) v t e n)) /\
  (forall t, force_sizes t = Some (a, b) -> same_quantity a b e n v (ConvertForce (N := RNum) v t e n)) /\
  (forall t, stress_sizes t = Some (a, b) -> same_quantity a b e n v (ConvertStress (N := RNum) v t e n)) /\
  (forall t, angle_sizes t = Some (a, b) -> same_quantity a b e n v (ConvertAngle (N := RNum) v t e n)).
Proof.
  intros v e n a b. repeat split; intros; [apply length_quantity|apply force_quantity|apply stress_quantity|apply angle_quantity]; assumption.
Qed.

(** ** Round trips *)
Lemma length_round_trip : forall v t t' e n, length_opposite t t' ->
  ConvertLength (N := RNum) (ConvertLength (N := RNum) v t e n) t' e n = v.
Proof.
  intros v t t' e n H.
  destruct (length_sizes t) as [[a b]|] eqn:E; [|destruct H; discriminate].
  assert (E' : length_sizes t' = Some (b, a)) by (destruct H; cbn in *; congruence).
  destruct (size_pos_length _ _ _ E). exact (same_quantity_back a b e n _ _ _ ltac:(assumption) ltac:(assumption) (length_quantity v t e n a b E) (length_quantity _ t' e n b a E')).
Qed.
Lemma force_round_trip : forall v t t' e n, force_opposite t t' ->
  ConvertForce (N := RNum) (ConvertForce (N := RNum) v t e n) t' e n = v.
Proof.
  intros v t t' e n H.
  destruct (force_sizes t) as [[a b]|] eqn:E; [|destruct H; discriminate].
  assert (E' : force_sizes t' = Some (b, a)) by (destruct H; cbn in *; congruence).
  destruct (size_pos_force _ _ _ E). exact (same_quantity_back a b e n _ _ _ ltac:(assumption) ltac:(assumption) (force_quantity v t e n a b E) (force_quantity _ t' e n b a E')).
Qed.
Lemma stress_round_trip : forall v t t' e n, stress_opposite t t' ->
  ConvertStress (N := RNum) (ConvertStress (N := RNum) v t e n) t' e n = v.
Proof.
  intros v t t' e n H.
  destruct (stress_sizes t) as [[a b]|] eqn:E; [|destruct H; discriminate].
  assert (E' : stress_sizes t' = Some (b, a)) by (destruct H; cbn in *; congruence).
  destruct (size_pos_stress _ _ _ E). exact (same_quantity_back a b e n _ _ _ ltac:(assumption) ltac:(assumption) (stress_quantity v t e n a b E) (stress_quantity _ t' e n b a E')).
Qed.
Lemma angle_round_trip : forall v t t' e n, angle_opposite t t' ->
  ConvertAngle (N := RNum) (ConvertAngle (N := RNum) v t e n) t' e n = v.
Proof.
  intros v t t' e n H.
  destruct (angle_sizes t) as [[a b]|] eqn:E; [|destruct H; discriminate].
  assert (E' : angle_sizes t' = Some (b, a)) by (destruct H; cbn in *; congruence).
  destruct (size_pos_angle _ _ _ E). exact (same_quantity_back a b e n _ _ _ ltac:(assumption) ltac:(assumption) (angle_quantity v t e n a b E) (angle_quantity _ t' e n b a E')).
Qed.

Lemma temp_factors : forall v e n,
  cv (cv v (kTemperatureKelvinToRankine (N := RNum)) (@fofZ RNum e) n)
     (kTemperatureRankineToKelvin (N := RNum)) (@fofZ RNum e) n = v /\
  cv (cv v (kTemperatureRankineToKelvin (N := RNum)) (@fofZ RNum e) n)
     (kTemperatureKelvinToRankine (N := RNum)) (@fofZ RNum e) n = v.
Proof.
  intros v e n.
  assert (A : kTemperatureKelvinToRankine (N := RNum) = (9 / 5) / 1).
  { unfold kTemperatureKelvinToRankine. rewrite flit_R. simpl. lra. }
  assert (B : kTemperatureRankineToKelvin (N := RNum) = 1 / (9 / 5)).
  { unfold kTemperatureRankineToKelvin. rn. rewrite flit_R. simpl. lra. }
  split.
  - eapply (same_quantity_back (9/5) 1 e n); [lra|lra| |];
      [apply Convert_size; [lra|lra|exact A]|apply Convert_size; [lra|lra|exact B]].
  - eapply (same_quantity_back 1 (9/5) e n); [lra|lra| |];
      [apply Convert_size; [lra|lra|exact B]|apply Convert_size; [lra|lra|exact A]].
Qed.

Lemma temperature_round_trip : forall v t t' e n, temperature_opposite t t' ->
  ConvertTemperature (N := RNum) (ConvertTemperature (N := RNum) v t e n) t' e n = v.
Proof.
  intros v t t' e n H. destruct H; unfold ConvertTemperature; try apply temp_factors.
  - match goal with |- cv ?x _ _ _ = _ => replace x with (cv v (kTemperatureKelvinToRankine (N := RNum)) (@fofZ RNum e) n) end.
    + apply temp_factors.
    + unfold kTemperatureShiftCelsiusToFahrenheit, kTemperatureShiftFahrenheitToCelsius. rn. rring.
  - destruct (temp_factors (v + -32) e n) as [_ T].
    unfold kTemperatureShiftCelsiusToFahrenheit, kTemperatureShiftFahrenheitToCelsius. rn.
    rewrite T. rring.
  - unfold kTemperatureShiftCelsiusToKelvin, kTemperatureShiftKelvinToCelsius. rn. rewrite !flit_R. simpl. lra.
  - unfold kTemperatureShiftCelsiusToKelvin, kTemperatureShiftKelvinToCelsius. rn. rewrite !flit_R. simpl. lra.
  - unfold kTemperatureShiftFahrenheitToRankine, kTemperatureShiftRankineToFahrenheit. rn. rewrite !flit_R. simpl. lra.
  - unfold kTemperatureShiftFahrenheitToRankine, kTemperatureShiftRankineToFahrenheit. rn. rewrite !flit_R. simpl. lra.
Qed.

(** ** Composition of exponents *)
Lemma Convert_undo : forall v f e, f <> 0 ->
  cv (cv v f (@fofZ RNum e) true) f (@fofZ RNum e) false = v /\
  cv (cv v f (@fofZ RNum e) false) f (@fofZ RNum e) true = v.
Proof.
  intros v f e Hf. rewrite !Convert_R. assert (powerRZ f e <> 0) by (apply powerRZ_nz; assumption).
  split; rfield; assumption.
Qed.

Lemma Convert_add : forall v f m n b, f <> 0 ->
  cv (cv v f (@fofZ RNum m) b) f (@fofZ RNum n) b = cv v f (@fofZ RNum (m + n)) b.
Proof.
  intros v f m n b Hf. rewrite !Convert_R, powerRZ_add by assumption.
  assert (powerRZ f m <> 0) by (apply powerRZ_nz; assumption).
  assert (powerRZ f n <> 0) by (apply powerRZ_nz; assumption).
  destruct b; rfield; auto.
Qed.

Lemma length_undo : forall v t e, t <> LCNull ->
  ConvertLength (N := RNum) (ConvertLength (N := RNum) v t e true) t e false = v /\
  ConvertLength (N := RNum) (ConvertLength (N := RNum) v t e false) t e true = v.
Proof. intros v t e H. destruct t; try congruence; apply Convert_undo; units_const; lra. Qed.
Lemma force_undo : forall v t e, t <> FCNull ->
  ConvertForce (N := RNum) (ConvertForce (N := RNum) v t e true) t e false = v /\
  ConvertForce (N := RNum) (ConvertForce (N := RNum) v t e false) t e true = v.
Proof. intros v t e H. destruct t; try congruence; apply Convert_undo; units_const; lra. Qed.
Lemma stress_undo : forall v t e, t <> SCNull ->
  ConvertStress (N := RNum) (ConvertStress (N := RNum) v t e true) t e false = v /\
  ConvertStress (N := RNum) (ConvertStress (N := RNum) v t e false) t e true = v.
Proof. intros v t e H. destruct t; try congruence; apply Convert_undo; units_const; lra. Qed.
Lemma angle_undo : forall v t e, t <> ACNull ->
  ConvertAngle (N := RNum) (ConvertAngle (N := RNum) v t e true) t e false = v /\
  ConvertAngle (N := RNum) (ConvertAngle (N := RNum) v t e false) t e true = v.
Proof. intros v t e H. destruct t; try congruence; apply Convert_undo; units_const; lra. Qed.

Lemma length_add : forall v t m n b, t <> LCNull ->
  ConvertLength (N := RNum) (ConvertLength (N := RNum) v t m b) t n b = ConvertLength (N := RNum) v t (m + n) b.
Proof. intros v t m n b H. destruct t; try congruence; apply Convert_add; units_const; lra. Qed.
Lemma force_add : forall v t m n b, t <> FCNull ->
  ConvertForce (N := RNum) (ConvertForce (N := RNum) v t m b) t n b = ConvertForce (N := RNum) v t (m + n) b.
Proof. intros v t m n b H. destruct t; try congruence; apply Convert_add; units_const; lra. Qed.
Lemma stress_add : forall v t m n b, t <> SCNull ->
  ConvertStress (N := RNum) (ConvertStress (N := RNum) v t m b) t n b = ConvertStress (N := RNum) v t (m + n) b.
Proof. intros v t m n b H. destruct t; try congruence; apply Convert_add; units_const; lra. Qed.
Lemma angle_add : forall v t m n b, t <> ACNull ->
  ConvertAngle (N := RNum) (ConvertAngle (N := RNum) v t m b) t n b = ConvertAngle (N := RNum) v t (m + n) b.
Proof. intros v t m n b H. destruct t; try congruence; apply Convert_add; units_const; lra. Qed.

(** ** Temperatures *)
Lemma temperature_scale : forall v t f g, temperature_scales t = Some (f, g) ->
  g (ConvertTemperature (N := RNum) v t 1 true) = f v.
Proof.
  intros v t f g H. destruct t; cbn in H; try discriminate; injection H as <- <-;
  unfold ConvertTemperature, kelvin_of_celsius, kelvin_of_fahrenheit, kelvin_of_rankine,
    kTemperatureKelvinToRankine, kTemperatureRankineToKelvin, kTemperatureShiftCelsiusToFahrenheit,
    kTemperatureShiftCelsiusToKelvin, kTemperatureShiftFahrenheitToCelsius,
    kTemperatureShiftFahrenheitToRankine, kTemperatureShiftKelvinToCelsius,
    kTemperatureShiftRankineToFahrenheit; rewrite ?Convert_R; rn; rewrite ?flit_R; simpl; lra.
Qed.

Lemma angle_pi : forall v : R,
  Rabs (ConvertAngle (N := RNum) v DegreesToRadians 1 true - v * PI / 180) <= Rabs v * (4 / 1000000000000000) / 180 /\
  Rabs (ConvertAngle (N := RNum) v RadiansToDegrees 1 true - v * 180 / PI) <= Rabs v * (8 / 100000000000000).
Proof.
  intros v. generalize PI_K. unfold K. intros [L U].
  unfold ConvertAngle. rewrite !Convert_R. unfold kAngleDegreesToRadians, kAngleRadiansToDegrees.
  rewrite kPi_val. rn. rewrite !powerRZ_1. split.
  - match goal with |- Rabs ?x <= _ => replace x with (v * ((314159265358979 / 100000000000000 - PI) / 180)) by field end.
    rewrite Rabs_mult. unfold Rdiv at 3. rewrite Rmult_assoc. apply Rmult_le_compat_l; [apply Rabs_pos|].
    apply Rabs_le. lra.
  - match goal with |- Rabs ?x <= _ => replace x with (v * (180 * (PI - 314159265358979 / 100000000000000) / ((314159265358979 / 100000000000000) * PI)))
      by (field; generalize PI_neq0; auto) end.
    rewrite Rabs_mult. apply Rmult_le_compat_l; [apply Rabs_pos|].
    rewrite Rabs_pos_eq.
    + apply Rmult_le_reg_r with ((314159265358979 / 100000000000000) * PI); [nra|].
      unfold Rdiv at 1. rewrite Rmult_assoc, Rinv_l by nra. nra.
    + apply Rlt_le. apply Rdiv_lt_0_compat; nra.
Qed.

Lemma psf_close : Rabs (psf - pound / (foot * foot)) <= 3 / 100000000 * psf.
Proof. unfold psf, pound, foot. apply Rabs_le. lra. Qed.
