(** A component with a bent load-strain curve. *)
From Coq Require Import ZArith Bool List Reals Lra Lia.
From Verif Require Import Num NumFacts ModelBase ModelCable ModelPolynomial ModelThermal ModelElongation SpecElong ProofReal
  ProofThermalCases ProofElongSafe ProofStrainer ProofElongReal SampleElongReal SpecPolynomial SpecCurve ProofPolynomial.
Import ListNotations.
Open Scope R_scope.

(** The load-strain curve 131072 x - 32768 x^2 up to the load 65536. *)
Definition k_comp : CableComponent RNum :=
  mkCableComponent (N := RNum) 0 (1 / 100000) [0; 65536; 0; 0; 0] [0; 131072; -32768; 0; 0] 32768 65536 1000 262144 1 1.

(** The component model alone, without stretch. *)
Definition k_calls : list (CmCall RNum) :=
  [CmSetComponent (Some (sk_set_base (Some k_comp))); CmSetTref (Some (70 : RNum)); CmSetState (Some (r_state PTLoadStrain 50));
   CmSetStretch (Some (r_stretch PTLoadStrain 0))].

Lemma k_model : exists m, cm_run CompModel_new k_calls = Ok m /\ cm_base m = Ok k_comp /\
  cm_state m = Some (r_state PTLoadStrain 50) /\ cready m /\ cm_upd_state m = false /\ cm_upd_stretch m = false /\
  cm_tref m = Some (70 : RNum) /\ cm_stretch m = Some (r_stretch PTLoadStrain 0).
Proof.
  unfold k_calls. cbn [cm_run cm_call].
  pose proof (set_component_ok CompModel_new (sk_set_base (Some k_comp)) (70 : RNum) k_comp eq_refl) as H.
  assert (Fi : filled k_comp) by (split; discriminate). specialize (H Fi).
  pose proof (eq_refl : sk_base (sk_set_base (Some k_comp)) = Some k_comp) as B. unfold cm_set_component in *.
  rewrite B in *. cbn [deref obind] in *.
  destruct (ModulusExtrapolate k_comp (cc_creep k_comp) (cc_limit_creep k_comp)) as [mc| |]; cbn [obind ok_with] in *; try contradiction.
  destruct (ModulusExtrapolate k_comp (cc_loadstrain k_comp) (cc_limit_loadstrain k_comp)) as [ml| |]; cbn [obind ok_with] in *;
    try contradiction.
  eexists. split; [reflexivity|]. split; [reflexivity|]. split; [reflexivity|].
  split; [|split; [reflexivity|split; [reflexivity|split; reflexivity]]].
  apply cready_set_both; [exact H|discriminate].
Qed.

Lemma k_points : exists m m1 pu ps pe, cm_run CompModel_new k_calls = Ok m /\ cm_base m = Ok k_comp /\
  cm_state m = Some (r_state PTLoadStrain 50) /\ cm_PointsRegions m = Ok ([pu; ps; pe], m1) /\
  p2y ps = (0 : R) /\ p2y pe = (65536 : R).
Proof.
  destruct k_model as (m & R & B & S & C & U & V & T & Z). exists m. pose proof (Points_ok m C) as P.
  unfold cm_PointsRegions in *. unfold cm_Update in *. rewrite V in *.
  assert (X : UpdateStretch m = Ok (true, with_stretch m (StrainThermal k_comp (70 : RNum) (70 : RNum)) (fofZ 0))).
  { unfold UpdateStretch. rewrite B, T. cbn [obind deref]. rewrite Z. cbn [obind deref r_stretch ss_load ss_temperature].
    assert (E : feqb (n := RNum) 0 (fofZ 0) = true) by (apply Reqb_true; rn; reflexivity). rewrite E. reflexivity. }
  rewrite X in *. cbn [obind] in *.
  change (cm_upd_state (with_flags (with_stretch m (StrainThermal k_comp (70 : RNum) (70 : RNum)) (fofZ 0)) (cm_upd_state
    (with_stretch m (StrainThermal k_comp (70 : RNum) (70 : RNum)) (fofZ 0))) true)) with (cm_upd_state m) in *.
  rewrite U in *.
  match type of P with context [UpdateState ?x] => set (n := x) in * end.
  unfold UpdateState in *. change (cm_state n) with (cm_state m) in *. rewrite S in *. cbn [deref obind] in *.
  change (cm_base n) with (cm_base m) in *. rewrite B in *. cbn [obind] in *. change (cm_tref n) with (cm_tref m) in *.
  rewrite T in *. cbn [deref obind r_state st_type st_temperature limit_of] in *.
  unfold PointsRegions in *.
  match type of P with context [StrainPolynomial ?x1 ?x2 ?x3 (cc_limit_loadstrain k_comp)] =>
    destruct (StrainPolynomial x1 x2 x3 (cc_limit_loadstrain k_comp)) as [xe| |] end; cbn [obind ok_with] in *; try contradiction.
  match type of P with context [StrainPolynomial ?x1 ?x2 ?x3 ?x4] => destruct (StrainPolynomial x1 x2 x3 x4) as [xs| |] end;
    cbn [obind ok_with] in *; try contradiction.
  eexists; eexists; eexists; eexists. split; [exact R|]. split; [reflexivity|]. split; [exact S || reflexivity|]. split; [reflexivity|].
  cbn [p2y]. split; [|reflexivity]. change (cm_load_stretch n) with (fofZ (N := RNum) 0). rn. reflexivity.
Qed.

Definition k_slope (x : R) : R := 131072 - 65536 * x.

Lemma k_deriv : forall x, derivable_pt_lim (peval (cc_loadstrain k_comp)) x (k_slope x).
Proof.
  intros x. replace (k_slope x) with (pder (cc_loadstrain k_comp) x); [apply pder_deriv|]. unfold k_slope. cbn. ring.
Qed.

Lemma k_bend : rises_concave k_slope (-1 / 10) 1.
Proof. intros x z H1 H2 H3. unfold k_slope. lra. Qed.

Lemma pow_99 : forall q (k : nat), 0 <= q <= 1 -> (k <= 99)%nat -> q ^ 99 <= q ^ k.
Proof.
  intros q k (Q1 & Q2) K. replace 99%nat with (k + (99 - k))%nat by lia. rewrite pow_add.
  assert (P : 0 <= q ^ k) by (apply pow_le; exact Q1).
  assert (L : q ^ (99 - k) <= 1). { rewrite <- (pow1 (99 - k)). apply pow_incr. lra. }
  rewrite <- (Rmult_1_r (q ^ k)) at 2. apply Rmult_le_compat_l; assumption.
Qed.

Lemma k_enough : (1 - k_slope 1 / k_slope (-1 / 10)) ^ 99 *
  (peval (cc_loadstrain k_comp) 1 - peval (cc_loadstrain k_comp) (-1 / 10)) <= 1 / 100.
Proof.
  assert (Q : 1 - k_slope 1 / k_slope (-1 / 10) = 11 / 21) by (unfold k_slope; field; lra). rewrite Q.
  pose proof (pow_99 (11 / 21) 30 ltac:(lra) ltac:(lia)) as P.
  assert (D : peval (cc_loadstrain k_comp) 1 - peval (cc_loadstrain k_comp) (-1 / 10) <= 120000) by (cbn; lra).
  assert (D0 : 0 <= peval (cc_loadstrain k_comp) 1 - peval (cc_loadstrain k_comp) (-1 / 10)) by (cbn; lra).
  assert (E : (11 / 21) ^ 30 <= 1 / 100000000).
  { assert (A : (11 / 21) ^ 5 <= 1 / 25) by (cbn [pow]; lra). replace 30%nat with (5 * 6)%nat by reflexivity. rewrite pow_mult.
    apply Rle_trans with ((1 / 25) ^ 6); [apply pow_incr; split; [apply pow_le; lra|exact A]|cbn [pow]; lra]. }
  assert (P0 : 0 <= (11 / 21) ^ 99) by (apply pow_le; lra).
  apply Rle_trans with (1 / 100000000 * 120000); [|lra]. apply Rmult_le_compat; lra.
Qed.
