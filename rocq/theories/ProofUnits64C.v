(** The unit conversions in double precision: all classes of units, and cases. *)
From Coq Require Import ZArith Bool Reals Lra Lia.
From Flocq Require Import Core.Core IEEE754.BinarySingleNaN.
From Verif Require Import Num NumFacts ModelBase SpecUnits SpecUnits64 ProofUnits ProofSearch ProofDouble ProofUnits64 ProofUnits64T SamplePow.
Open Scope R_scope.

Lemma all_accurate : forall lm, accurate_pow lm ->
  forall (v : b64) e n a b, ordinary v -> (-4 <= e <= 4)%Z ->
    (forall t, length_sizes t = Some (a, b) -> nearly_same_quantity (bpow radix2 (-49)) a b e n v (ConvertLength (N := B64 lm) v t e n)) /\
    (forall t, force_sizes t = Some (a, b) -> nearly_same_quantity (bpow radix2 (-49)) a b e n v (ConvertForce (N := B64 lm) v t e n)) /\
    (forall t, stress_sizes t = Some (a, b) -> nearly_same_quantity (bpow radix2 (-49)) a b e n v (ConvertStress (N := B64 lm) v t e n)) /\
    (forall t, angle_sizes t = Some (a, b) -> nearly_same_quantity (bpow radix2 (-49)) a b e n v (ConvertAngle (N := B64 lm) v t e n)).
Proof.
  intros lm L v e n a b V E. split; [|split; [|split]]; intros t T.
  - assert (N : t <> LCNull) by (intros ->; discriminate).
    exact (conversion_quantity lm L _ _ a b v e n (length_conversion lm t N) V E (length_quantity (B2R v) t e n a b T)).
  - assert (N : t <> FCNull) by (intros ->; discriminate).
    exact (conversion_quantity lm L _ _ a b v e n (force_conversion lm t N) V E (force_quantity (B2R v) t e n a b T)).
  - assert (N : t <> SCNull) by (intros ->; discriminate).
    exact (conversion_quantity lm L _ _ a b v e n (stress_conversion lm t N) V E (stress_quantity (B2R v) t e n a b T)).
  - assert (N : t <> ACNull) by (intros ->; discriminate).
    exact (conversion_quantity lm L _ _ a b v e n (angle_conversion lm t N) V E (angle_quantity (B2R v) t e n a b T)).
Qed.

Lemma all_back : forall lm, accurate_pow lm ->
  forall (v : b64) e n, ordinary v -> (-4 <= e <= 4)%Z ->
    (forall t t', length_opposite t t' -> nearly (bpow radix2 (-48)) (ConvertLength (N := B64 lm) (ConvertLength (N := B64 lm) v t e n) t' e n) v) /\
    (forall t t', force_opposite t t' -> nearly (bpow radix2 (-48)) (ConvertForce (N := B64 lm) (ConvertForce (N := B64 lm) v t e n) t' e n) v) /\
    (forall t t', stress_opposite t t' -> nearly (bpow radix2 (-48)) (ConvertStress (N := B64 lm) (ConvertStress (N := B64 lm) v t e n) t' e n) v) /\
    (forall t t', angle_opposite t t' -> nearly (bpow radix2 (-48)) (ConvertAngle (N := B64 lm) (ConvertAngle (N := B64 lm) v t e n) t' e n) v).
Proof.
  intros lm L v e n V E. split; [|split; [|split]]; intros t t' T.
  - assert (N : t <> LCNull /\ t' <> LCNull) by (destruct T; split; discriminate). destruct N as [N N'].
    exact (conversion_back lm L _ _ _ _ v e n (length_conversion lm t N) (length_conversion lm t' N') V E (length_round_trip (B2R v) t t' e n T)).
  - assert (N : t <> FCNull /\ t' <> FCNull) by (destruct T; split; discriminate). destruct N as [N N'].
    exact (conversion_back lm L _ _ _ _ v e n (force_conversion lm t N) (force_conversion lm t' N') V E (force_round_trip (B2R v) t t' e n T)).
  - assert (N : t <> SCNull /\ t' <> SCNull) by (destruct T; split; discriminate). destruct N as [N N'].
    exact (conversion_back lm L _ _ _ _ v e n (stress_conversion lm t N) (stress_conversion lm t' N') V E (stress_round_trip (B2R v) t t' e n T)).
  - assert (N : t <> ACNull /\ t' <> ACNull) by (destruct T; split; discriminate). destruct N as [N N'].
    exact (conversion_back lm L _ _ _ _ v e n (angle_conversion lm t N) (angle_conversion lm t' N') V E (angle_round_trip (B2R v) t t' e n T)).
Qed.

Lemma Convert_one : forall lm, (forall x, lm_pow lm x (b64_ofZ 1) = x) -> forall v f,
  Convert (N := B64 lm) v f (fofZ (N := B64 lm) 1) true = @Bmult 53 1024 Hprec64 Hemax64 mode_NE v f.
Proof.
  intros lm H v f. unfold Convert. cbn [fmul fpow B64]. f_equal. unfold fofZ. cbn [flit B64]. unfold b64_lit. rewrite Z.mul_1_r. apply H.
Qed.

Lemma not_exact : forall lm, (forall x, lm_pow lm x (b64_ofZ 1) = x) ->
  Beqb (ConvertLength (N := B64 lm) (ConvertLength (N := B64 lm) (b64_ofZ 1) FeetToMeters 1 true) MetersToFeet 1 true) (b64_ofZ 1) = false /\
  Beqb (ConvertTemperature (N := B64 lm) (ConvertTemperature (N := B64 lm) (b64_ofZ 10) FahrenheitToCelsius 1 true) CelsiusToFahrenheit 1 true) (b64_ofZ 10) = false.
Proof.
  intros lm H. split.
  - unfold ConvertLength. rewrite !(Convert_one lm H). vm_compute. reflexivity.
  - unfold ConvertTemperature. rewrite !(Convert_one lm H). vm_compute. reflexivity.
Qed.

Lemma ordinary_int : forall z, (1 <= z <= 2 ^ 53)%Z -> ordinary (b64_ofZ z).
Proof.
  intros z H. destruct (ofZ_exact z ltac:(lia)) as (A & B). split; [exact A|]. right. rewrite B. rewrite Rabs_pos_eq by (apply IZR_le; lia).
  split.
  - apply Rle_trans with (bpow radix2 0); [apply bpow_le; lia|]. apply IZR_le. lia.
  - apply Rle_trans with (bpow radix2 53); [|apply bpow_le; lia]. rewrite <- IZR_Zpower by lia. apply IZR_le. exact (proj2 H).
Qed.

Lemma double_case :
  accurate_pow precise /\ ordinary (b64_ofZ 10000) /\ length_sizes FeetToMeters = Some (foot, meter) /\
  Beqb (ConvertLength (N := B64 precise) (b64_ofZ 10000) FeetToMeters 1 true) (b64_ofZ 3048) = true /\
  Beqb (ConvertStress (N := B64 precise) (b64_ofZ 3) PsiToPsf (-1) false) (b64_ofZ 432) = true /\
  reading (b64_ofZ 100) /\ temperature_scales CelsiusToFahrenheit = Some (kelvin_of_celsius, kelvin_of_fahrenheit) /\
  Beqb (ConvertTemperature (N := B64 precise) (b64_ofZ 100) CelsiusToFahrenheit 1 true) (b64_ofZ 212) = true.
Proof.
  split; [exact precise_accurate|]. split; [apply ordinary_int; lia|]. split; [reflexivity|].
  split; [vm_compute; reflexivity|]. split; [vm_compute; reflexivity|]. split.
  - destruct (ofZ_exact 100 ltac:(lia)) as (A & B). split; [exact A|]. rewrite B. rewrite Rabs_pos_eq; lra.
  - split; [reflexivity|]. vm_compute; reflexivity.
Qed.
