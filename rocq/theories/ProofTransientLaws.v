(** Proofs for C196 and C197: temperature histories of two transient solvers. *)
From Coq Require Import ZArith Bool List Reals Lra Lia.
From Verif Require Import Num NumFacts ModelBase ModelCable ModelThermal SpecThermal
  ProofReal ProofThermalReal ProofThermal ProofThermalTemp ProofThermalCases.
Import ListNotations.

Section P.
Context {N : Num}.

Lemma points_prefix : forall (s s' : TransientSolver N) n m time prev l l',
  ts_cable s' = ts_cable s -> ts_current_steady s' = ts_current_steady s -> ts_current_step s' = ts_current_step s ->
  ts_units s' = ts_units s -> ts_weather s' = ts_weather s -> (n <= m)%nat ->
  points_loop s n time prev = Ok l -> points_loop s' m time prev = Ok l' -> exists more, l' = l ++ more.
Proof.
  intros s s' n. induction n as [|n IH]; intros m time prev l l' E1 E2 E3 E4 E5 L H H'.
  - cbn in H. injection H as <-. exists l'. reflexivity.
  - destruct m as [|m]; [lia|]. cbn [points_loop] in H, H'. unfold TemperatureSteady in *.
    rewrite E1, E2, E3, E4, E5 in H'.
    match type of H with obind ?x _ = _ => set (t0 := x) in * end.
    destruct t0 as [t| |]; cbn [obind] in *; try discriminate.
    destruct (points_loop s n (time + 1) (Some t)) as [r| |] eqn:P; cbn [obind] in H; try discriminate.
    destruct (points_loop s' m (time + 1) (Some t)) as [r'| |] eqn:P'; cbn [obind] in H'; try discriminate.
    injection H as <-. injection H' as <-.
    destruct (IH m (time + 1)%Z (Some t) r r' E1 E2 E3 E4 E5 ltac:(lia) P P') as (more & ->).
    exists more. reflexivity.
Qed.

Lemma history_loop : forall ks (s : TransientSolver N) l, ts_run TransientSolver_default ks = Ok s ->
  omap fst (ts_PointsTemperature s) = Ok (Some l) ->
  points_loop (ts_renew s) (Z.to_nat (ts_duration s + 1)) 0 None = Ok l.
Proof.
  intros ks s l Rn H. destruct (ts_history ks) as (s0 & Rn0 & (Sm & _) & _).
  rewrite Rn in Rn0. injection Rn0 as <-. rewrite Sm in H. clear Sm Rn ks.
  destruct (ts_Update_ok (ts_renew s)) as (b & s' & E & _ & _ & Up).
  unfold ts_PointsTemperature in H. change (ts_is_updated (ts_renew s)) with false in H. cbn iota in H.
  rewrite E in H. cbn [obind omap fst] in H. unfold UpdateTemperaturePoints in Up.
  change (ts_duration (ts_renew s)) with (ts_duration s) in Up.
  destruct (negb _); [injection Up as <- _; discriminate H|].
  destruct (points_loop (ts_renew s) (Z.to_nat (ts_duration s + 1)) 0 None) as [l0| |]; cbn [obind] in Up; try discriminate Up.
  injection Up as Eb El. rewrite <- Eb in H. injection H as <-. f_equal. exact El.
Qed.

Lemma longer_history : forall ks ks' (s s' : TransientSolver N) l l',
  ts_run TransientSolver_default ks = Ok s -> ts_run TransientSolver_default ks' = Ok s' ->
  ts_cable s' = ts_cable s -> ts_current_steady s' = ts_current_steady s -> ts_current_step s' = ts_current_step s ->
  ts_units s' = ts_units s -> ts_weather s' = ts_weather s -> (ts_duration s <= ts_duration s')%Z ->
  omap fst (ts_PointsTemperature s) = Ok (Some l) -> omap fst (ts_PointsTemperature s') = Ok (Some l') ->
  exists more, l' = l ++ more.
Proof.
  intros ks ks' s s' l l' Rn Rn' E1 E2 E3 E4 E5 L H H'.
  apply (history_loop ks s l Rn) in H. apply (history_loop ks' s' l' Rn') in H'.
  eapply (points_prefix (ts_renew s) (ts_renew s')); [..|exact H|exact H']; try assumption. lia.
Qed.
End P.

Open Scope R_scope.

Lemma step_heats : forall ks ks' (s s' : TransientSolver RNum) b (p0 p1 p0' p1' : TemperaturePoint RNum) rest rest' (r : R),
  ts_run TransientSolver_default ks = Ok s -> ts_run TransientSolver_default ks' = Ok s' ->
  ts_cable s = Some (mkThermalRatingCable (Some b)) ->
  ts_cable s' = ts_cable s -> ts_current_steady s' = ts_current_steady s ->
  ts_units s' = ts_units s -> ts_weather s' = ts_weather s ->
  omap fst (ts_PointsTemperature s) = Ok (Some (p0 :: p1 :: rest)) ->
  omap fst (ts_PointsTemperature s') = Ok (Some (p0' :: p1' :: rest')) ->
  0 < cc_capacity_heat (cb_core b) + cc_capacity_heat (cb_shell b) ->
  trc_Resistance (mkThermalRatingCable (Some b)) (tp_temperature p0) = Ok r -> 0 < r ->
  Rabs (ts_current_step s) < Rabs (ts_current_step s') ->
  (tp_temperature p0' : R) = tp_temperature p0 /\ (tp_temperature p1 : R) < tp_temperature p1'.
Proof.
  intros ks ks' s s' b p0 p1 p0' p1' rest rest' r Rn Rn' C E1 E2 E4 E5 H H' K Er P L.
  destruct (transient_history ks) as (s0 & Rn0 & T). rewrite Rn in Rn0. injection Rn0 as <-.
  destruct (transient_history ks') as (s0 & Rn0 & T'). rewrite Rn' in Rn0. injection Rn0 as <-.
  cbv zeta in T, T'. rewrite E1, E4, E5 in T'.
  destruct (hs_Validate _); [|rewrite H in T; discriminate T].
  destruct T as (l & Hl & _ & _ & F0 & F1). destruct T' as (l' & Hl' & _ & _ & F0' & F1').
  rewrite H in Hl. injection Hl as <-. rewrite H' in Hl'. injection Hl' as <-.
  assert (A := F0 p0 eq_refl). assert (A' := F0' p0' eq_refl). rewrite E2 in A'.
  rewrite A in A'. injection A' as A'.
  assert (B := F1 b 0%nat p0 p1 C eq_refl eq_refl). assert (B' := F1' b 0%nat p0' p1' C eq_refl eq_refl).
  rewrite <- A' in B'. split; [symmetry; exact A'|]. clear F0 F0' F1 F1' A A'.
  destruct B as (cv & rd & re & so & B1 & B2 & B3 & B4 & B5).
  destruct B' as (cv' & rd' & re' & so' & B1' & B2' & B3' & B4' & B5').
  rewrite B1 in B1'. injection B1' as <-. rewrite B2 in B2'. injection B2' as <-. rewrite B4 in B4'. injection B4' as <-.
  unfold hs_HeatResistance in B3, B3'. cbn [hs_cable] in B3, B3'. rewrite C in B3, B3'. cbn [deref obind] in B3, B3'.
  rewrite Er in B3, B3'. cbn [obind] in B3, B3'. injection B3 as B3. injection B3' as B3'.
  rewrite B5, B5'. revert B3 B3'. rn. rewrite !Rpow_c_2. intros <- <-.
  set (i := ts_current_step s) in *. set (i' := ts_current_step s') in *.
  change (F RNum) with R in (type of i), (type of i').
  assert (Q : i * i < i' * i').
  { apply Rsqr_lt_abs_1 in L. exact L. }
  assert (Q2 := Rmult_lt_compat_r r _ _ P Q).
  apply Rplus_lt_compat_l. unfold Rdiv. apply Rmult_lt_compat_r; [apply Rinv_0_lt_compat; exact K|].
  change (F RNum) with R in *. lra.
Qed.

(** A history with any step current and duration. *)
Definition case_calls (step : R) (d : Z) : list (TransientCall RNum) :=
  [RcSetCable (wire base2); RcSetCurrentSteady (N := RNum) i0; RcSetCurrentStep (N := RNum) step; RcSetDuration d;
   RcSetUnits Metric; RcSetWeather (Some (calm sun0))].
Definition case_solver (step : R) (d : Z) : TransientSolver RNum :=
  ts_fresh (N := RNum) (wire base2) i0 step d Metric (Some (calm sun0)).

Lemma case_history : forall step d, (1 <= d)%Z ->
  ts_run TransientSolver_default (case_calls step d) = Ok (case_solver step d) /\
  exists p q rest, omap fst (ts_PointsTemperature (case_solver step d)) = Ok (Some (p :: q :: rest)) /\
    (tp_temperature p : R) = 1280 / 127.
Proof.
  intros step d Hd. destruct (transient_history (case_calls step d)) as (s & Rn & H).
  assert (W : tw_Validate (calm sun0) = true) by (apply calm_valid; assert (P := sun0_pos); lra).
  assert (V : hs_Validate (mkHeatSolver (wire base2) Metric (Some (calm sun0))) = true) by (apply hs_valid; [exact base2_valid|exact W|discriminate]).
  assert (Es : s = case_solver step d) by (cbn in Rn; injection Rn; auto).
  split; [rewrite <- Es; exact Rn|].
  cbv zeta in H. rewrite Es in H.
  change (ts_cable (case_solver step d)) with (wire base2) in H. change (ts_units (case_solver step d)) with Metric in H.
  change (ts_weather (case_solver step d)) with (Some (calm sun0)) in H. change (ts_duration (case_solver step d)) with d in H.
  change (ts_current_steady (case_solver step d)) with i0 in H.
  rewrite V in H. destruct H as (l & P & L & _ & H0 & _).
  destruct l as [|p [|q rest]]; cbn [length] in L; try lia.
  exists p, q, rest. split; [exact P|].
  assert (G := H0 p eq_refl). destruct i0_sun as (st & E). destruct (st_fresh_answer _ _ _ _ _ _ _ E) as (s' & A & _).
  rewrite A in G. cbn [omap obind fst] in G. injection G as <-. reflexivity.
Qed.
