(** C194: a cable that may get hotter carries more current. *)
From Coq Require Import ZArith Bool List Reals Lra.
From Verif Require Import Num NumFacts ModelBase ModelCable ModelThermal SpecThermal
  ProofReal ProofThermalReal ProofThermal ProofThermalCases ProofHeatCases ProofRatingLimit.
Import ListNotations.
Open Scope R_scope.

(** Partial: at a higher temperature of the cable the resistive heat is greater and a
    current that is not negative stays positive; the current itself grows if the resistance
    does not, and a negative current grows if the resistance does not fall.  Missing, and
    false: the current grows also if the resistance rises. *)
Theorem rating_grows_with_limit_partial : forall (b : Cable RNum) u (w : ThermalRatingWeather RNum) (t t' r r' : R), let c := mkThermalRatingCable (Some b) in
  trc_Validate c = true -> u <> USNull -> tw_Validate w = true ->
  tw_temperature_air w <= t -> t < t' -> t' <= 1000 ->
  trc_Resistance c t = Ok r -> trc_Resistance c t' = Ok r' -> 0 < r -> 0 < r' ->
  let current x := omap fst (sc_Current (sc_fresh (N := RNum) (Some c) x u (Some w))) in
  exists i i' : R, current t = Ok i /\ current t' = Ok i' /\
    (0 <= i -> 0 < i' /\ i * i * r < i' * i' * r' /\ (r' <= r -> i < i')) /\
    (i < 0 -> r <= r' -> i < i').
Proof. exact rating_limit. Qed.
Print Assumptions rating_grows_with_limit_partial.

Example rating_grows_with_limit_case :
  trc_Validate (mkThermalRatingCable (Some base2)) = true /\ tw_Validate (breeze 45 10) = true /\ tw_temperature_air (breeze 45 10) <= 50 /\
  trc_Resistance (mkThermalRatingCable (Some base2)) (50 : F RNum) = Ok (1 : F RNum) /\
  trc_Resistance (mkThermalRatingCable (Some base2)) (75 : F RNum) = Ok (1 : F RNum).
Proof.
  split; [exact base2_valid|]. split; [apply breeze_valid; lra|]. split; [cbn; lra|].
  split; unfold trc_Resistance; cbn [deref obind trc_base]; f_equal; apply base2_resistance.
Qed.

(** Refuted: with a resistance that rises steeply the hotter cable carries less. *)
Theorem rating_grows_with_limit_refuted : exists (b : Cable RNum) u (w : ThermalRatingWeather RNum) (t t' i i' r r' : R), let c := mkThermalRatingCable (Some b) in
  let current x := omap fst (sc_Current (sc_fresh (N := RNum) (Some c) x u (Some w))) in
  trc_Validate c = true /\ u <> USNull /\ tw_Validate w = true /\
  tw_temperature_air w <= t /\ t < t' /\ t' <= 1000 /\
  trc_Resistance c t = Ok r /\ trc_Resistance c t' = Ok r' /\ 0 < r < r' /\
  current t = Ok i /\ current t' = Ok i' /\ 0 < i' < i.
Proof. exact rating_limit_refuted. Qed.
Print Assumptions rating_grows_with_limit_refuted.
