(** SolarRadiationSolver: the course of the sun over a day. *)
From Coq Require Import ZArith Bool List Reals Lra Lia Psatz.
From Verif Require Import Num NumFacts ModelBase ModelPolynomial ModelSolar SpecPolynomial SpecVector SpecSolar
  ProofReal ProofVector ProofPolynomial ProofSolar ProofSolarRad ProofSolarCases.
Import ListNotations.
Open Scope R_scope.

Lemma rad_inj : forall x y, rad x = rad y -> x = y.
Proof. intros x y E. unfold rad in E. assert (P := K_pos). apply Rmult_eq_reg_r in E; [exact E|]. lra. Qed.

Lemma omega_mirror : forall h, omega_of (24 - h) = - omega_of h.
Proof. intros h. unfold omega_of, rad. rewrite !minus_IZR. lra. Qed.

Lemma altitude_mirror : forall (l : R) d h, altitude_of l d (24 - h) = altitude_of l d h.
Proof.
  intros l d h. apply rad_inj. rewrite !altitude_R, omega_mirror. unfold sun_up. rewrite cos_neg. reflexivity.
Qed.

Lemma chi_mirror : forall (l : R) d h, chi_of l d (24 - h) = - chi_of l d h.
Proof. intros l d h. unfold chi_of. rewrite omega_mirror, sin_neg, cos_neg. unfold Rdiv. ring. Qed.

(** The sun is east or west of the meridian at every full hour but noon, by the 15 digits of pi. *)
Lemma omega_sin : forall h, (1 <= h <= 11)%Z -> sin (omega_of h) < 0.
Proof.
  intros h H. assert (P := PI_K). rewrite <- (Ropp_involutive (omega_of h)), sin_neg.
  assert (L : 1 <= IZR (12 - h) <= 11) by (split; apply IZR_le; lia).
  assert (E : - omega_of h = IZR (12 - h) * (K / 12)) by (unfold omega_of, rad; rewrite !minus_IZR; lra).
  rewrite E. assert (0 < sin (IZR (12 - h) * (K / 12))) by (apply sin_gt_0; unfold K in *; nra). lra.
Qed.

Lemma azimuth_mirror : forall (l : R) d h, (1 <= h <= 11)%Z -> chi_of l d h <> 0 ->
  azimuth_of l d h + azimuth_of l d (24 - h) = 360.
Proof.
  intros l d h H N. unfold azimuth_of. rewrite chi_mirror, atan_opp.
  assert (A : 15 * IZR (h - 12) < 0). { assert (IZR (h - 12) <= -1) by (apply IZR_le; lia). lra. }
  assert (B : 15 * IZR (24 - h - 12) > 0). { assert (1 <= IZR (24 - h - 12)) by (apply IZR_le; lia). lra. }
  destruct (Rlt_dec (15 * IZR (h - 12)) 0); [|lra]. destruct (Rlt_dec (15 * IZR (24 - h - 12)) 0); [lra|].
  destruct (Rlt_dec (chi_of l d h) 0), (Rlt_dec (- chi_of l d h) 0); try lra.
Qed.

Lemma omega_abs : forall h, (0 <= h <= 23)%Z -> cos (omega_of h) = cos (IZR (Z.abs (h - 12)) * (K / 12)).
Proof.
  intros h H. unfold omega_of, rad. destruct (Z.abs_spec (h - 12)) as [[_ ->]|[_ ->]].
  - f_equal. lra.
  - rewrite <- cos_neg. f_equal. rewrite opp_IZR. lra.
Qed.

Lemma altitude_noon : forall (l : R) d h h', -90 <= l <= 90 -> (0 <= h <= 23)%Z -> (0 <= h' <= 23)%Z -> (Z.abs (h - 12) < Z.abs (h' - 12))%Z ->
  altitude_of l d h' < altitude_of l d h.
Proof.
  intros l d h h' L H H' A. assert (P := PI_K).
  assert (C : cos (omega_of h') < cos (omega_of h)).
  { rewrite !omega_abs by assumption.
    assert (0 <= IZR (Z.abs (h - 12))) by (apply IZR_le; lia). assert (IZR (Z.abs (h - 12)) < IZR (Z.abs (h' - 12))) by (apply IZR_lt; lia).
    assert (IZR (Z.abs (h' - 12)) <= 12) by (apply IZR_le; lia). apply cos_decreasing_1; unfold K in *; nra. }
  assert (CL : 0 < cos (rad l)) by (apply cos_gt_0; unfold rad, K in *; lra).
  assert (CD : 0 < cos (dec_of d)) by (apply cos_gt_0; apply dec_small).
  destruct (altitude_sin l d h) as [S B]. destruct (altitude_sin l d h') as [S' B'].
  assert (U : sin (rad (altitude_of l d h')) < sin (rad (altitude_of l d h))).
  { rewrite S, S'. unfold sun_up. assert (0 < cos (dec_of d) * cos (rad l)) by (apply Rmult_lt_0_compat; assumption). nra. }
  apply sin_increasing_0 in U; try lra. unfold rad in U. assert (KP := K_pos). apply Rmult_lt_reg_r in U; lra.
Qed.

Lemma day_api : forall ks ks' (i := inputs_after (N := RNum) ks) (j := inputs_after (N := RNum) ks'), in_range i -> in_range j ->
  in_latitude i = in_latitude j -> in_day i = in_day j ->
  ((in_hour i + in_hour j = 24)%Z -> altitude_after ks = altitude_after ks' /\
    ((forall phi dec omega, sun_angles (in_latitude i) (in_day i) (in_hour i) phi dec omega -> sun_north phi dec omega <> 0) ->
     in_hour i <> 12%Z -> azimuth_after ks + azimuth_after ks' = 360)) /\
  ((Z.abs (in_hour i - 12) < Z.abs (in_hour j - 12))%Z -> altitude_after ks' < altitude_after ks).
Proof.
  intros ks ks' i j Gi Gj EL ED. destruct Gi as (_ & _ & _ & Hh & L & Q & U). destruct Gj as (_ & _ & _ & Hh' & _ & Q' & U').
  destruct (run_answers ks U Q) as (A & B & _). destruct (run_answers ks' U' Q') as (A' & B' & _).
  fold i in A, B, Hh, L. fold j in A', B', Hh'. rewrite <- EL, <- ED in A', B'. rewrite A, A', B, B'. split.
  - intros S. assert (E : in_hour j = (24 - in_hour i)%Z) by lia. rewrite E. split; [symmetry; apply altitude_mirror|].
    intros N H12.
    assert (NZ : forall h, (1 <= h <= 11)%Z -> sun_north (rad (in_latitude i)) (dec_of (in_day i)) (omega_of h) <> 0 -> chi_of (in_latitude i) (in_day i) h <> 0).
    { intros h Hr Nn. rewrite (chi_east_north _ _ _ Nn). assert (S1 := omega_sin h Hr). assert (CD : 0 < cos (dec_of (in_day i))) by (apply cos_gt_0; apply dec_small).
      unfold sun_east. intros Z. apply Rmult_integral in Z. destruct Z as [Z|Z]; [nra|]. exact (Rinv_neq_0_compat _ Nn Z). }
    assert (N1 := N _ _ _ (of_angles (in_latitude i) (in_day i) (in_hour i))).
    destruct (Z_lt_le_dec (in_hour i) 12) as [M|M].
    + apply azimuth_mirror; [lia|]. apply NZ; [lia|exact N1].
    + set (g := (24 - in_hour i)%Z) in *. replace (in_hour i) with (24 - g)%Z in * by (unfold g; lia). rewrite Rplus_comm.
      apply azimuth_mirror; [lia|]. apply NZ; [lia|]. rewrite omega_mirror in N1. unfold sun_north in *. rewrite cos_neg in N1. exact N1.
  - intros M. apply altitude_noon; assumption.
Qed.

(** ** A case *)

Lemma oslo_morning : forall d phi dec omega, sun_angles 60 d 11 phi dec omega -> sun_north phi dec omega < 0.
Proof.
  intros d phi dec omega G. assert (Dd := sun_angles_dec _ _ _ _ _ _ G). destruct G as (Hp & _ & Hw). unfold about_degrees in *.
  replace (15 * IZR (11 - 12)) with (-15) in Hw by (cbn; lra). rewrite (Rabs_left (-15)) in Hw by lra. rewrite (Rabs_pos_eq 60) in Hp by lra.
  apply Rabs_both in Hp. apply Rabs_both in Hw.
  assert (PB : 3 < PI < 32 / 10) by (assert (P := PI_K); unfold K in P; lra).
  assert (C1 : sqrt 3 / 2 <= cos dec) by (apply cos_small; lra). assert (C2 : sqrt 3 / 2 <= cos omega) by (apply cos_small; lra).
  assert (S1 : sin dec < 1 / 2). { rewrite <- sin_PI6. apply sin_increasing_1; lra. }
  assert (S2 : sqrt 2 / 2 < sin phi).
  { replace (sqrt 2 / 2) with (sin (PI / 4)). - apply sin_increasing_1; lra.
    - rewrite sin_PI4. assert (Q2 : sqrt 2 * sqrt 2 = 2) by (apply sqrt_sqrt; lra). assert (0 < sqrt 2) by (apply sqrt_lt_R0; lra).
      field_simplify_eq; lra. }
  assert (S3 : 0 < cos phi < sqrt 2 / 2).
  { split; [apply cos_gt_0; lra|]. replace (sqrt 2 / 2) with (cos (PI / 4)). - apply cos_decreasing_1; lra.
    - rewrite cos_PI4. assert (Q2 : sqrt 2 * sqrt 2 = 2) by (apply sqrt_sqrt; lra). assert (0 < sqrt 2) by (apply sqrt_lt_R0; lra).
      field_simplify_eq; lra. }
  destruct sqrt3_2 as [E3 P3]. assert (P2 : 0 < sqrt 2) by (apply sqrt_lt_R0; lra). unfold sun_north.
  assert (3 / 4 <= cos dec * cos omega) by nra.
  assert (3 / 4 * (sqrt 2 / 2) <= (cos dec * cos omega) * sin phi) by nra.
  assert (sin dec * cos phi <= 1 / 2 * (sqrt 2 / 2)) by nra.
  lra.
Qed.

Definition oslo_at (h : Z) : list (SolarCall RNum) :=
  setting (mkSolarInputs (N := RNum) (90 : R) 172%Z (0 : R) h (60 : R) AqClear Metric).

Lemma oslo_at_range : forall h, (0 <= h <= 23)%Z -> in_range (inputs_after (oslo_at h)).
Proof.
  intros h H. unfold oslo_at. rewrite inputs_setting. unfold in_range; cbn [in_azimuth in_day in_elevation in_hour in_latitude in_quality in_units].
  repeat split; try lra; try lia; discriminate.
Qed.
