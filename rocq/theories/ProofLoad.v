(** Proofs about the unit load of an iced cable, in real arithmetic. *)
From Coq Require Import ZArith Bool List Reals Lra Psatz.
From Verif Require Import Num NumFacts ModelBase ModelLoad ProofReal.
Open Scope R_scope.

(** The density times the section of a ring of ice of thickness [t] around a cable of
    diameter [d]. *)
Definition ring (pi density t d : R) : R := density * (pi * ((d / 2 + t) * (d / 2 + t)) - pi * (d / 2 * (d / 2))).

Lemma unit_load_value : forall (mem : Doubles RNum) s (w : WeatherLoadCase RNum) a b,
  ul_diameter s = Some a -> ul_weight s = Some b ->
  UnitCableLoad (N := RNum) mem s w =
    Ok (mkVector3d (N := RNum) 0 (wl_pressure_wind w * (mem a + 2 * wl_thickness_ice w))
          (mem b + ring K (wl_density_ice w) (wl_thickness_ice w) (mem a))).
Proof.
  intros mem s w a b Ha Hb. unfold UnitCableLoad. rewrite Ha, Hb. cbn [double_at obind]. f_equal.
  unfold Volume, AreaCrossSection, ring. cbn [cy_diameter cy_length]. rn. rewrite !Rpow_2, ?kPi_val. fold K.
  f_equal; rn; try rring; try rfield.
Qed.

(** Bounds against the true ring. *)
Lemma ring_nonneg : forall pi density t d, 0 <= pi -> 0 <= density -> 0 <= t -> 0 <= d -> 0 <= ring pi density t d.
Proof.
  intros. unfold ring. replace (density * _) with (density * (pi * (t * (d + t)))) by field.
  apply Rmult_le_pos; [assumption|]. apply Rmult_le_pos; [assumption|]. apply Rmult_le_pos; lra.
Qed.

Lemma ring_pi : forall density t d, 0 <= density -> 0 <= t -> 0 <= d ->
  ring K density t d <= ring PI density t d <= ring K density t d + 4 / 1000000000000000 * (density * t * (d + t)).
Proof.
  intros density t d H1 H2 H3. destruct PI_K as (A & B). unfold ring.
  assert (E : forall p, density * (p * ((d / 2 + t) * (d / 2 + t)) - p * (d / 2 * (d / 2))) = p * (density * t * (d + t))).
  { intros p. field. }
  rewrite !E. assert (P : 0 <= density * t * (d + t)). { apply Rmult_le_pos; [apply Rmult_le_pos; assumption|lra]. }
  split; [apply Rmult_le_compat_r; lra|]. rewrite <- Rmult_plus_distr_r. apply Rmult_le_compat_r; lra.
Qed.

Lemma ring_mono : forall density t t' d, 0 <= density -> 0 <= t <= t' -> 0 <= d ->
  ring K density t d <= ring K density t' d.
Proof.
  intros density t t' d H1 (H2 & H3) H4. assert (0 <= K) by (unfold K; lra). unfold ring.
  assert (E : forall u, density * (K * ((d / 2 + u) * (d / 2 + u)) - K * (d / 2 * (d / 2))) = (density * K) * (u * (d + u))).
  { intros u. field. }
  rewrite !E. apply Rmult_le_compat_l; [apply Rmult_le_pos; assumption|]. apply Rmult_le_compat; lra.
Qed.

Lemma valid_facts : forall (mem : Doubles RNum) s (w : WeatherLoadCase RNum),
  ul_Validate (N := RNum) mem s = true -> WeatherLoadCase_Validate w = true ->
  exists a b, ul_diameter s = Some a /\ ul_weight s = Some b /\ 0 < mem a /\ 0 < mem b /\
    0 <= wl_density_ice w /\ 0 <= wl_pressure_wind w /\ 0 <= wl_thickness_ice w.
Proof.
  intros mem s w V W. unfold ul_Validate in V. apply andb_true_iff in V. destruct V as (V1 & V2).
  unfold WeatherLoadCase_Validate in W. rewrite !andb_true_iff in W. destruct W as (((W1 & W2) & _) & W4).
  unfold bad_double in *. destruct (ul_diameter s) as [a|]; [|discriminate V1].
  destruct (ul_weight s) as [b|]; [|discriminate V2]. exists a, b.
  apply negb_true_iff in V1, V2, W1, W2, W4. apply Rleb_false in V1, V2. apply Rltb_false in W1, W2, W4.
  revert V1 V2 W1 W2 W4. rn. intros. repeat split; lra.
Qed.

Theorem unit_load : forall (mem : Doubles RNum) s (w : WeatherLoadCase RNum),
  ul_Validate (N := RNum) mem s = true -> WeatherLoadCase_Validate w = true ->
  exists a b v, ul_diameter s = Some a /\ ul_weight s = Some b /\ UnitCableLoad (N := RNum) mem s w = Ok v /\
    let d := mem a in let t := wl_thickness_ice w in
    v3x v = 0 /\
    v3y v = wl_pressure_wind w * (d + 2 * t) /\
    0 <= v3y v /\
    v3z v <= mem b + ring PI (wl_density_ice w) t d <=
      v3z v + 4 / 1000000000000000 * (wl_density_ice w * t * (d + t)) /\
    mem b <= v3z v /\ 0 < v3z v /\ (0 < wl_density_ice w -> (v3z v = mem b <-> t = 0)).
Proof.
  intros mem s w V W. destruct (valid_facts mem s w V W) as (a & b & Ha & Hb & A & B & D & P & T).
  exists a, b. eexists. split; [exact Ha|]. split; [exact Hb|]. split; [apply (unit_load_value mem s w a b Ha Hb)|].
  cbv zeta. cbn [v3x v3y v3z]. assert (Hd : 0 <= mem a) by lra.
  pose proof (ring_pi _ _ _ D T Hd) as (R1 & R2).
  assert (R3 : 0 <= ring K (wl_density_ice w) (wl_thickness_ice w) (mem a)).
  { apply ring_nonneg; try assumption. unfold K. lra. }
  split; [reflexivity|]. split; [reflexivity|]. split; [apply Rmult_le_pos; lra|].
  split; [split; lra|]. split; [lra|]. split; [lra|]. intros D0. split; intros H.
  - destruct (Rle_lt_or_eq_dec _ _ T) as [T0|T0]; [|congruence]. exfalso.
    assert (0 < ring K (wl_density_ice w) (wl_thickness_ice w) (mem a)); [|lra]. unfold ring.
    replace (wl_density_ice w * _) with (wl_density_ice w * (K * (wl_thickness_ice w * (mem a + wl_thickness_ice w)))) by rfield.
    apply Rmult_lt_0_compat; [exact D0|]. apply Rmult_lt_0_compat; [unfold K; lra|]. apply Rmult_lt_0_compat; lra.
  - rewrite H. unfold ring. rfield.
Qed.

(** More ice, more load; no ice, the bare cable. *)
Theorem unit_load_ice : forall (mem : Doubles RNum) s (w w' : WeatherLoadCase RNum) v v',
  ul_Validate (N := RNum) mem s = true -> WeatherLoadCase_Validate w = true -> WeatherLoadCase_Validate w' = true ->
  wl_density_ice w = wl_density_ice w' -> wl_pressure_wind w = wl_pressure_wind w' ->
  wl_thickness_ice w <= wl_thickness_ice w' ->
  UnitCableLoad (N := RNum) mem s w = Ok v -> UnitCableLoad (N := RNum) mem s w' = Ok v' ->
  v3y v <= v3y v' /\ v3z v <= v3z v' /\
  (wl_thickness_ice w = 0 -> forall a b, ul_diameter s = Some a -> ul_weight s = Some b ->
     v3y v = wl_pressure_wind w * mem a /\ v3z v = mem b).
Proof.
  intros mem s w w' v v' V W W' E1 E2 L Q Q'.
  destruct (valid_facts mem s w V W) as (a & b & Ha & Hb & A & B & D & P & T).
  rewrite (unit_load_value mem s w a b Ha Hb) in Q. rewrite (unit_load_value mem s w' a b Ha Hb) in Q'.
  injection Q as <-. injection Q' as <-. cbn [v3y v3z]. assert (Hd : 0 <= mem a) by lra.
  pose proof (ring_mono _ _ _ _ D (conj T L) Hd) as M. rewrite <- E1, <- E2.
  split; [apply Rmult_le_compat_l; lra|]. split; [lra|]. intros Z a' b' Ha' Hb'.
  rewrite Ha in Ha'. rewrite Hb in Hb'. injection Ha' as <-. injection Hb' as <-. rewrite Z. unfold ring. split; rfield.
Qed.
