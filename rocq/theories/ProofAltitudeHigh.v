(** Weathers up high. *)
From Coq Require Import ZArith Bool List Reals Lra.
From Verif Require Import Num NumFacts ModelBase ModelCable ModelThermal SpecThermal SpecAltitude
  ProofReal ProofThermalReal ProofThermal ProofThermalCases ProofHeatCases ProofAltitude.
Import ListNotations.
Open Scope R_scope.

(** A breeze at an elevation. *)
Definition aloft (e : R) : ThermalRatingWeather RNum := mkThermalRatingWeather (N := RNum) (45 : R) e (95 : R) (10 : R) (20 : R).

Lemma aloft_valid : forall e, 0 <= e -> tw_Validate (aloft e) = true.
Proof. intros e H. unfold tw_Validate, aloft. cbn. rn. rdec. reflexivity. Qed.

Lemma aloft_else : forall e e', elsewhere (aloft e) (aloft e').
Proof. intros e e'. constructor; reflexivity. Qed.

Lemma base2_75 : trc_Resistance (mkThermalRatingCable (Some base2)) (75 : F RNum) = Ok (1 : F RNum).
Proof. unfold trc_Resistance. cbn [deref obind trc_base]. f_equal. apply base2_resistance. Qed.

Lemma aloft_case :
  trc_Validate (mkThermalRatingCable (Some base2)) = true /\ tw_Validate (aloft 0) = true /\ tw_Validate (aloft 10000) = true /\
  elsewhere (aloft 0) (aloft 10000) /\ tw_elevation (aloft 10000) <= sky Imperial /\ tw_elevation (aloft 10000) <= sky Metric /\
  tw_temperature_air (aloft 0) < 75 /\ 0 < tw_speed_wind (aloft 0) /\
  trc_Resistance (mkThermalRatingCable (Some base2)) (75 : F RNum) = Ok (1 : F RNum).
Proof.
  split; [exact base2_valid|]. split; [apply aloft_valid; lra|]. split; [apply aloft_valid; lra|]. split; [apply aloft_else|].
  cbn. repeat split; try lra. exact base2_75.
Qed.

Lemma aloft_refuted : forall u, u <> USNull -> exists (b : Cable RNum) (w w' : ThermalRatingWeather RNum) (t r i i' : R),
  let c := mkThermalRatingCable (Some b) in
  let current v := omap fst (sc_Current (sc_fresh (N := RNum) (Some c) t u (Some v))) in
  trc_Validate c = true /\ tw_Validate w = true /\ tw_Validate w' = true /\ elsewhere w w' /\ tw_elevation w < tw_elevation w' /\
  tw_temperature_air w <= t <= 1000 /\ trc_Resistance c t = Ok r /\ 0 < r /\ current w = Ok i /\ current w' = Ok i' /\ i < i'.
Proof.
  intros u U.
  assert (L : density_air (N := RNum) u (40000 : R) ((75 + 20) / 2) < density_air (N := RNum) u (100000 : R) ((75 + 20) / 2)).
  { rewrite !density_R by exact U. apply Rmult_lt_compat_r; [apply Rinv_0_lt_compat; lra|]. destruct u; [congruence|lra|lra]. }
  destruct (current_thin base2 u (aloft 100000) (aloft 40000) 75 1 base2_valid U (aloft_valid 100000 ltac:(lra)) (aloft_valid 40000 ltac:(lra)) (aloft_else _ _)
    ltac:(cbn; lra) base2_75 ltac:(lra) (Rlt_le _ _ L)) as (i' & i & I' & I & _ & G).
  exists base2, (aloft 40000), (aloft 100000), 75, 1, i, i'. cbv zeta.
  split; [exact base2_valid|]. split; [apply aloft_valid; lra|]. split; [apply aloft_valid; lra|]. split; [apply aloft_else|].
  split; [cbn; lra|]. split; [cbn; lra|]. split; [exact base2_75|]. split; [lra|]. split; [exact I|]. split; [exact I'|].
  apply (G L); cbn; lra.
Qed.
