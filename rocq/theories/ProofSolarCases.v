(** SolarRadiationSolver: the statements about its interface, and their witnesses. *)
From Coq Require Import ZArith Bool List Reals Lra Lia Psatz.
From Verif Require Import Num NumFacts ModelBase ModelPolynomial ModelSolar SpecPolynomial SpecVector SpecSolar
  ProofReal ProofVector ProofPolynomial ProofSolar ProofSolarRad.
Import ListNotations.
Open Scope R_scope.

Notation altitude_after ks := (fst (sr_AltitudeSun (sr_run (N := RNum) SolarSolver_default ks)) : R).
Notation azimuth_after ks := (fst (sr_AzimuthSun (sr_run (N := RNum) SolarSolver_default ks)) : R).
Notation radiation_after ks := (fst (sr_Radiation (sr_run (N := RNum) SolarSolver_default ks)) : R).
Notation valid_after ks := (fst (sr_Validate (sr_run (N := RNum) SolarSolver_default ks))).

Lemma validate_exact : forall ks, valid_after ks = true <-> in_range (inputs_after ks).
Proof.
  intros ks. destruct (run_inv (N := RNum) ks) as [I E]. rewrite (validates _ I), E.
  set (s := sr_run SolarSolver_default ks) in *. set (i := inputs_after ks) in *.
  assert (V : sr_inputs_valid s = true <-> in_range i).
  { rewrite <- E. unfold sr_inputs_valid, in_range, inputs_of. cbn [in_azimuth in_day in_elevation in_hour in_latitude in_quality in_units].
    clear. rn. unfold Rltb. rewrite !andb_true_iff, !negb_true_iff, !orb_false_iff, Z.leb_gt, !Z.ltb_ge, Z.leb_gt.
    repeat match goal with |- context [Rlt_dec ?a ?b] => destruct (Rlt_dec a b) end;
    destruct (sr_quality s), (sr_units s); (split; [intros H | intros H]); decompose [and] H; try discriminate; try lra; try congruence;
      repeat split; try lra; try lia; try congruence. }
  rewrite andb_true_iff, V. split; [tauto|]. intros G. split; [exact G|].
  destruct (solved_R i) as (atm & el & _ & ->); [apply G|apply G|reflexivity].
Qed.

Lemma altitude_api : forall ks (i := inputs_after ks), in_range i ->
  exists phi dec omega alt, sun_angles (in_latitude i) (in_day i) (in_hour i) phi dec omega /\
    about_degrees (altitude_after ks) alt /\ - (PI / 2) <= alt <= PI / 2 /\ sin alt = sun_up phi dec omega.
Proof.
  intros ks i (_ & _ & _ & _ & _ & Q & U). destruct (run_answers ks U Q) as (A & _ & _). fold i in A. rewrite A.
  destruct (altitude_sin (in_latitude i) (in_day i) (in_hour i)) as [S B].
  exists (rad (in_latitude i)), (dec_of (in_day i)), (omega_of (in_hour i)), (rad (altitude_of (in_latitude i) (in_day i) (in_hour i))).
  split; [apply of_angles|]. split; [apply about_rad|]. split; [exact B|exact S].
Qed.

Lemma azimuth_api : forall ks (i := inputs_after ks), in_range i -> 0 <= azimuth_after ks < 360 /\
  ((forall phi dec omega, sun_angles (in_latitude i) (in_day i) (in_hour i) phi dec omega -> sun_north phi dec omega <> 0) ->
   (in_hour i = 12%Z -> forall phi dec omega, sun_angles (in_latitude i) (in_day i) (in_hour i) phi dec omega -> sun_north phi dec omega < 0) ->
   exists phi dec omega alt azi, sun_angles (in_latitude i) (in_day i) (in_hour i) phi dec omega /\
    about_degrees (altitude_after ks) alt /\ about_degrees (azimuth_after ks) azi /\
    cos alt * sin azi = sun_east phi dec omega /\ cos alt * cos azi = sun_north phi dec omega /\ sin alt = sun_up phi dec omega).
Proof.
  intros ks i (_ & _ & _ & Hh & _ & Q & U). destruct (run_answers ks U Q) as (A & Z & _). fold i in A, Z. rewrite A, Z.
  split; [apply azimuth_range|]. intros Hn H12.
  assert (SA := of_angles (in_latitude i) (in_day i) (in_hour i)).
  destruct (azimuth_dir (in_latitude i) (in_day i) (in_hour i)) as (azi & Ab & E1 & E2).
  { fold i in Hh. lia. }
  { apply Hn. exact SA. }
  { destruct (Z.eq_dec (in_hour i) 12) as [E|E]; [right; apply (H12 E); exact SA|left; exact E]. }
  destruct (altitude_sin (in_latitude i) (in_day i) (in_hour i)) as [S B].
  exists (rad (in_latitude i)), (dec_of (in_day i)), (omega_of (in_hour i)), (rad (altitude_of (in_latitude i) (in_day i) (in_hour i))), azi.
  assert (C : cos (rad (altitude_of (in_latitude i) (in_day i) (in_hour i))) =
    sqrt (sun_east (rad (in_latitude i)) (dec_of (in_day i)) (omega_of (in_hour i)) * sun_east (rad (in_latitude i)) (dec_of (in_day i)) (omega_of (in_hour i))
      + sun_north (rad (in_latitude i)) (dec_of (in_day i)) (omega_of (in_hour i)) * sun_north (rad (in_latitude i)) (dec_of (in_day i)) (omega_of (in_hour i)))).
  { assert (U1 := sun_unit (rad (in_latitude i)) (dec_of (in_day i)) (omega_of (in_hour i))). rewrite <- S in U1.
    set (x := rad (altitude_of (in_latitude i) (in_day i) (in_hour i))) in *.
    assert (T := sin2_cos2 x). unfold Rsqr in T. rewrite <- (sqrt_square (cos x)) by (apply cos_ge_0; lra). f_equal. lra. }
  rewrite C. split; [exact SA|]. split; [apply about_rad|]. split; [exact Ab|]. split; [exact E1|]. split; [exact E2|exact S].
Qed.

Lemma radiation_day : forall ks (i := inputs_after ks), in_range i -> si_elevation (in_units i) (in_elevation i) <= 12000 ->
  (1 <= altitude_after ks -> 0 <= radiation_after ks) /\
  (0 <= altitude_after ks -> si_radiation (in_units i) (radiation_after ks) <= 1367).
Proof.
  intros ks i (_ & _ & He & _ & _ & Q & U) Hm. destruct (run_answers ks U Q) as (A & _ & C). fold i in A, C. rewrite A, C. clear A C.
  fold i in He, Q, U.
  assert (RG := altitude_range (in_latitude i) (in_day i) (in_hour i)).
  set (h := altitude_of (in_latitude i) (in_day i) (in_hour i)) in *. set (z := azimuth_of (in_latitude i) (in_day i) (in_hour i)).
  assert (IB := incidence_bounds h z (in_azimuth i)). assert (I0 := Rabs_pos (sin (rad h))).
  assert (F := factor_bounds (in_units i) (in_elevation i) U).
  assert (F' : 0 < elevation_factor (in_units i) (in_elevation i) <= 1307 / 1000).
  { apply F. split; [|exact Hm]. unfold si_elevation. destruct (in_units i); lra. }
  clear F. set (f := elevation_factor (in_units i) (in_elevation i)) in *. set (s := incidence h z (in_azimuth i)) in *.
  split; intros L.
  - assert (P := day_positive (in_units i) (in_quality i) h U Q ltac:(lra)). apply Rmult_le_pos; [apply Rmult_le_pos|]; lra.
  - assert (P := day_bounds (in_units i) (in_quality i) h U Q ltac:(lra)).
    assert (E : si_radiation (in_units i) (atmosphere (in_units i) (in_quality i) h * s * f) =
                si_radiation (in_units i) (atmosphere (in_units i) (in_quality i) h) * (s * f)).
    { unfold si_radiation. destruct (in_units i); ring. }
    rewrite E. set (p := si_radiation (in_units i) (atmosphere (in_units i) (in_quality i) h)) in *.
    assert (0 <= s * f <= 1307 / 1000) by (split; nra). nra.
Qed.

Lemma radiation_night : forall ks (i := inputs_after ks), in_range i -> si_elevation (in_units i) (in_elevation i) <= 12000 ->
  in_quality i = AqClear -> altitude_after ks < 0 -> valid_after ks = true /\ radiation_after ks < 0.
Proof.
  intros ks i G Hm Qc. split; [apply validate_exact; exact G|]. revert H. destruct G as (_ & _ & He & _ & _ & Q & U).
  destruct (run_answers ks U Q) as (A & _ & C). fold i in A, C. rewrite A, C. clear A C. fold i in He, Q, U.
  set (h := altitude_of (in_latitude i) (in_day i) (in_hour i)) in *. set (z := azimuth_of (in_latitude i) (in_day i) (in_hour i)).
  intros L. assert (IB := incidence_bounds h z (in_azimuth i)).
  assert (I0 : 0 < Rabs (sin (rad h))). { apply Rabs_pos_lt. assert (G := altitude_sign _ _ _ L). fold h in G. lra. }
  assert (F := factor_bounds (in_units i) (in_elevation i) U).
  assert (F' : 0 < elevation_factor (in_units i) (in_elevation i) <= 1307 / 1000).
  { apply F. split; [|exact Hm]. unfold si_elevation. destruct (in_units i); lra. }
  clear F. rewrite Qc. assert (P := clear_night (in_units i) h U ltac:(lra)).
  assert (0 < incidence h z (in_azimuth i) * elevation_factor (in_units i) (in_elevation i)) by (apply Rmult_lt_0_compat; lra).
  nra.
Qed.

(** ** Witnesses on the equator *)

Definition equator (u : UnitSystem) (q : AtmosphereQualityType) (d h : Z) (e : R) : list (SolarCall RNum) :=
  setting (mkSolarInputs (N := RNum) (90 : R) d e h (0 : R) q u).

Lemma equator_inputs : forall u q d h e, inputs_after (equator u q d h e) = mkSolarInputs (N := RNum) (90 : R) d e h (0 : R) q u.
Proof. reflexivity. Qed.

Lemma equator_range : forall u q d h e, u <> USNull -> q <> AqNull -> (1 <= d <= 365)%Z -> (0 <= h <= 23)%Z -> 0 <= e ->
  in_range (inputs_after (equator u q d h e)).
Proof.
  intros. rewrite equator_inputs. unfold in_range; cbn [in_azimuth in_day in_elevation in_hour in_latitude in_quality in_units].
  repeat split; try lra; try lia; assumption.
Qed.

Lemma sqrt3_2 : sqrt 3 / 2 * (sqrt 3 / 2) = 3 / 4 /\ 0 < sqrt 3 / 2.
Proof.
  assert (E : sqrt 3 * sqrt 3 = 3) by (apply sqrt_sqrt; lra). assert (0 < sqrt 3) by (apply sqrt_lt_R0; lra). split; lra.
Qed.

Lemma cos_small : forall x, - (PI / 6) <= x <= PI / 6 -> sqrt 3 / 2 <= cos x.
Proof.
  intros x H. rewrite <- cos_PI6. assert (P := PI_K). unfold K in P.
  destruct (Rle_dec 0 x) as [L|L].
  - apply cos_decr_1; lra.
  - rewrite <- (cos_neg x). apply cos_decr_1; lra.
Qed.

Lemma dec_cos : forall d, sqrt 3 / 2 <= cos (dec_of d).
Proof.
  intros d. apply cos_small. unfold dec_of. set (x := rad (360 * IZR (284 + d) / 365)). assert (B := SIN_bound x).
  assert (P := PI_K). unfold rad, K in *. split; nra.
Qed.

Lemma equator_up : forall d h, sin (rad (altitude_of 0 d h)) = cos (dec_of d) * cos (omega_of h).
Proof.
  intros d h. destruct (altitude_sin 0 d h) as [-> _]. unfold sun_up. replace (rad 0) with 0 by (unfold rad; ring).
  rewrite sin_0, cos_0. ring.
Qed.

Lemma equator_noon : forall d, 1 <= altitude_of 0 d 12.
Proof.
  intros d. assert (U := equator_up d 12). replace (omega_of 12) with 0 in U by (unfold omega_of, rad; cbn; lra).
  rewrite cos_0 in U. assert (C := dec_cos d). destruct (Rle_dec 1 (altitude_of 0 d 12)) as [L|L]; [exact L|]. exfalso.
  assert (P := PI_K). destruct (altitude_sin 0 d 12) as [_ B].
  assert (S : sin (rad (altitude_of 0 d 12)) < sin (PI / 6)).
  { apply sin_increasing_1; unfold rad, K in *; try lra; try nra. }
  rewrite sin_PI6 in S. destruct sqrt3_2. nra.
Qed.

Lemma cos_K : cos K <= - (sqrt 3 / 2).
Proof.
  replace K with (- (PI - K) + PI) by ring. rewrite neg_cos, cos_neg. assert (P := PI_K).
  assert (sqrt 3 / 2 <= cos (PI - K)) by (apply cos_small; unfold K in *; lra). lra.
Qed.

Lemma equator_midnight : forall d, altitude_of 0 d 0 <= -45 /\ 3 / 4 <= Rabs (sin (rad (altitude_of 0 d 0))).
Proof.
  intros d. assert (U := equator_up d 0). replace (omega_of 0) with (- K) in U by (unfold omega_of, rad; cbn; lra).
  rewrite cos_neg in U. assert (C := dec_cos d). assert (D := cos_K). destruct sqrt3_2 as [E P3].
  assert (S : sin (rad (altitude_of 0 d 0)) <= - (3 / 4)) by (rewrite U; nra).
  split; [|rewrite Rabs_left; lra].
  destruct (Rle_dec (altitude_of 0 d 0) (-45)) as [L|L]; [exact L|]. exfalso.
  assert (P := PI_K). assert (B := altitude_sin 0 d 0). destruct B as [_ B].
  assert (S' : sin (- (PI / 4)) < sin (rad (altitude_of 0 d 0))).
  { apply sin_increasing_1; unfold rad, K in *; try lra; try nra. }
  rewrite sin_neg, sin_PI4 in S'. assert (Q2 : sqrt 2 * sqrt 2 = 2) by (apply sqrt_sqrt; lra).
  assert (0 < sqrt 2) by (apply sqrt_lt_R0; lra).
  assert (1 / sqrt 2 = sqrt 2 / 2) by (field_simplify_eq; lra). nra.
Qed.

Lemma midnight_negative : exists ks, valid_after ks = true /\ radiation_after ks < 0.
Proof.
  exists (equator Metric AqClear 1 0 0). apply radiation_night.
  - apply equator_range; try discriminate; try lia; lra.
  - rewrite equator_inputs. cbn. lra.
  - reflexivity.
  - destruct (run_answers (equator Metric AqClear 1 0 0)) as (-> & _); try (rewrite equator_inputs; discriminate).
    rewrite equator_inputs. cbn [in_latitude in_day in_hour]. destruct (equator_midnight 1). lra.
Qed.

Lemma midnight_excess : exists ks, valid_after ks = true /\ in_units (inputs_after (N := RNum) ks) = Metric /\
  in_elevation (inputs_after (N := RNum) ks) = (0 : R) /\ altitude_after ks <= -45 /\ 1367 < radiation_after ks.
Proof.
  exists (equator Metric AqIndustrial 1 0 0).
  split; [apply validate_exact; apply equator_range; try discriminate; try lia; lra|].
  split; [reflexivity|]. split; [reflexivity|].
  destruct (run_answers (equator Metric AqIndustrial 1 0 0)) as (-> & _ & ->); try (rewrite equator_inputs; discriminate).
  rewrite equator_inputs. cbn [in_latitude in_day in_hour in_units in_quality in_azimuth in_elevation].
  destruct (equator_midnight 1) as [A B]. split; [exact A|].
  assert (P := industrial_night Metric _ ltac:(discriminate) A). cbn [si_radiation] in P.
  assert (I := incidence_bounds (altitude_of 0 1 0) (azimuth_of 0 1 0) 90).
  replace (elevation_factor Metric 0) with 1 by (unfold elevation_factor; lra). nra.
Qed.

(** ** Unit systems *)

Lemma factors_agree : forall m f, f * (3048 / 10000) = m -> 0 <= m <= 4000 ->
  Rabs (elevation_factor Metric m - elevation_factor Imperial f) <= 53 / 10000.
Proof.
  intros m f E H. replace f with (m / (3048 / 10000)) by (rewrite <- E; field). unfold elevation_factor. apply Rabs_le.
  split; nra.
Qed.

Lemma units_api : forall ks ks' (i := inputs_after ks) (j := inputs_after ks'), in_range i -> in_range j ->
  in_units i = Metric -> in_units j = Imperial -> in_elevation j * (3048 / 10000) = in_elevation i -> in_elevation i <= 4000 ->
  in_azimuth i = in_azimuth j -> in_day i = in_day j -> in_hour i = in_hour j -> in_latitude i = in_latitude j -> in_quality i = in_quality j ->
  altitude_after ks = altitude_after ks' /\ azimuth_after ks = azimuth_after ks' /\
  (0 <= altitude_after ks -> Rabs (radiation_after ks - si_radiation Imperial (radiation_after ks')) <= 6).
Proof.
  intros ks ks' i j Gi Gj Ui Uj Ee E4 E1 E2 E3 E5 E6.
  destruct Gi as (_ & _ & He & _ & _ & Q & U). destruct Gj as (_ & _ & He' & _ & _ & Q' & U').
  destruct (run_answers ks U Q) as (A & B & C). destruct (run_answers ks' U' Q') as (A' & B' & C').
  fold i in A, B, C. fold j in A', B', C'. rewrite <- E2, <- E3, <- E5 in A', B', C'. rewrite <- E1, <- E6 in C'.
  rewrite A, B, A', B', C, C'. clear A B A' B' C C'. split; [reflexivity|]. split; [reflexivity|].
  fold i in He, Q, U. fold j in He', Q', U'. rewrite Ui, Uj.
  assert (RG := altitude_range (in_latitude i) (in_day i) (in_hour i)).
  set (h := altitude_of (in_latitude i) (in_day i) (in_hour i)) in *. set (z := azimuth_of (in_latitude i) (in_day i) (in_hour i)).
  intros L. assert (IB := incidence_bounds h z (in_azimuth i)). assert (I0 := Rabs_pos (sin (rad h))).
  set (s := incidence h z (in_azimuth i)) in *.
  assert (FA := factors_agree (in_elevation i) (in_elevation j) Ee ltac:(lra)).
  assert (F := factor_bounds Metric (in_elevation i) ltac:(discriminate) ltac:(cbn [si_elevation]; lra)).
  assert (PA := units_agree (in_quality i) h Q ltac:(lra)).
  assert (PB := day_bounds Imperial (in_quality i) h ltac:(discriminate) Q ltac:(lra)).
  assert (E : si_radiation Imperial (atmosphere Imperial (in_quality i) h * s * elevation_factor Imperial (in_elevation j)) =
              si_radiation Imperial (atmosphere Imperial (in_quality i) h) * s * elevation_factor Imperial (in_elevation j))
    by (cbn [si_radiation]; ring).
  rewrite E. clear E. set (p := atmosphere Metric (in_quality i) h) in *. set (p' := si_radiation Imperial (atmosphere Imperial (in_quality i) h)) in *.
  set (f := elevation_factor Metric (in_elevation i)) in *. set (f' := elevation_factor Imperial (in_elevation j)) in *.
  replace (p * s * f - p' * s * f') with (s * ((p - p') * f + p' * (f - f'))) by ring.
  clearbody p p' f f' s. clear - FA F PA PB IB I0.
  apply Rabs_both in FA. apply Rabs_both in PA.
  assert (X : Rabs ((p - p') * f + p' * (f - f')) <= 6).
  { apply Rabs_le. assert (- (3 / 10) <= (p - p') * f <= 3 / 10) by (split; nra).
    assert (- (56 / 10) <= p' * (f - f') <= 56 / 10) by (split; nra). lra. }
  rewrite Rabs_mult, (Rabs_pos_eq s) by lra. assert (Y := Rabs_pos ((p - p') * f + p' * (f - f'))). nra.
Qed.

(** ** Noon south of the sun *)

Definition southern : list (SolarCall RNum) :=
  setting (mkSolarInputs (N := RNum) (90 : R) 172%Z (0 : R) 12%Z (-30 : R) AqClear Metric).

Lemma southern_wrong : valid_after southern = true /\
  forall phi dec omega azi, sun_angles (-30) 172 12 phi dec omega -> about_degrees (azimuth_after southern) azi ->
    cos azi < 0 < sun_north phi dec omega.
Proof.
  split.
  - apply validate_exact. unfold southern. rewrite inputs_setting. unfold in_range; cbn [in_azimuth in_day in_elevation in_hour in_latitude in_quality in_units].
    repeat split; try lra; try lia; discriminate.
  - intros phi dec omega azi (Hp & (theta & Ht & Hd) & Hw).
    destruct (run_answers southern) as (_ & -> & _); try (unfold southern; rewrite inputs_setting; discriminate).
    unfold southern. rewrite inputs_setting. cbn [in_latitude in_day in_hour].
    assert (P := PI_K). assert (PB : 3 < PI < 32 / 10) by (unfold K in P; lra).
    assert (Z : azimuth_of (-30) 172 12 = 180).
    { unfold azimuth_of. replace (chi_of (-30) 172 12) with 0.
      - destruct (Rlt_dec (15 * IZR (12 - 12)) 0) as [L|_]; [exfalso; cbn in L; lra|]. destruct (Rlt_dec 0 0); [lra|]. rewrite atan_0. lra.
      - unfold chi_of. replace (omega_of 12) with 0 by (unfold omega_of, rad; cbn; lra). rewrite sin_0. unfold Rdiv. ring. }
    rewrite Z. unfold about_degrees in *. intros Ha.
    rewrite (Rabs_pos_eq 180) in Ha by lra. rewrite (Rabs_left (-30)) in Hp by lra.
    replace (15 * IZR (12 - 12)) with 0 in Hw by (cbn; lra). rewrite Rabs_R0 in Hw.
    rewrite (Rabs_pos_eq (360 * IZR (284 + 172) / 365)) in Ht by (cbn; lra).
    apply Rabs_both in Ha. apply Rabs_both in Hp. apply Rabs_both in Hw. apply Rabs_both in Ht.
    change (284 + 172)%Z with 456%Z in Ht.
    assert (Sth : 0 < sin theta <= 1).
    { split; [|apply SIN_bound]. replace theta with ((theta - 2 * PI) + 2 * PI) by ring.
      rewrite sin_plus, sin_2PI, cos_2PI. assert (0 < sin (theta - 2 * PI)) by (apply sin_gt_0; lra). lra. }
    assert (Sx : 1 / 2 < sin theta).
    { replace theta with ((theta - 2 * PI) + 2 * PI) by ring. rewrite sin_plus, sin_2PI, cos_2PI.
      assert (sin (PI / 6) < sin (theta - 2 * PI)). { apply sin_increasing_1; try lra. } rewrite sin_PI6 in H. lra. }
    rewrite (Rabs_pos_eq (2346 / 100 * sin theta)) in Hd by nra. apply Rabs_both in Hd.
    assert (Bd : 0 < dec < PI / 2) by (split; nra).
    split; [apply cos_lt_0; lra|].
    unfold sun_north. assert (0 < sin dec) by (apply sin_gt_0; lra). assert (0 < cos dec) by (apply cos_gt_0; lra).
    assert (0 < cos phi) by (apply cos_gt_0; lra). assert (sin phi < 0) by (apply sin_lt_0_var; lra).
    assert (0 < cos omega) by (apply cos_gt_0; lra).
    assert (0 < sin dec * cos phi) by nra. assert (0 < cos dec * cos omega) by nra. nra.
Qed.

(** ** North of the sun *)

Lemma sun_angles_dec : forall (l : R) d h phi dec omega, sun_angles l d h phi dec omega -> - (PI / 6) < dec < PI / 6.
Proof.
  intros l d h phi dec omega (_ & (theta & _ & Hd) & _). assert (B := SIN_bound theta). unfold about_degrees in Hd.
  assert (PB : 3 < PI < 32 / 10) by (assert (P := PI_K); unfold K in P; lra).
  rewrite Rabs_mult, (Rabs_pos_eq (2346 / 100)) in Hd by lra. assert (Rabs (sin theta) <= 1) by (apply Rabs_le; lra).
  apply Rabs_both in Hd. split; nra.
Qed.

Lemma oslo_north : forall d phi dec omega, sun_angles 60 d 12 phi dec omega -> sun_north phi dec omega < 0.
Proof.
  intros d phi dec omega G. assert (Dd := sun_angles_dec _ _ _ _ _ _ G). destruct G as (Hp & _ & Hw). unfold about_degrees in *.
  replace (15 * IZR (12 - 12)) with 0 in Hw by (cbn; lra). rewrite Rabs_R0 in Hw. rewrite (Rabs_pos_eq 60) in Hp by lra.
  apply Rabs_both in Hp. apply Rabs_both in Hw.
  assert (PB : 3 < PI < 32 / 10) by (assert (P := PI_K); unfold K in P; lra).
  assert (C1 : sqrt 3 / 2 <= cos dec) by (apply cos_small; lra). assert (C2 : sqrt 3 / 2 <= cos omega) by (apply cos_small; lra).
  assert (S1 : sin dec < 1 / 2). { rewrite <- sin_PI6. apply sin_increasing_1; lra. }
  assert (S2 : sqrt 2 / 2 < sin phi).
  { replace (sqrt 2 / 2) with (sin (PI / 4)). - apply sin_increasing_1; lra.
    - rewrite sin_PI4. assert (Q2 : sqrt 2 * sqrt 2 = 2) by (apply sqrt_sqrt; lra). assert (0 < sqrt 2) by (apply sqrt_lt_R0; lra).
      field_simplify_eq; lra. }
  assert (S3 : 0 < cos phi < sqrt 2 / 2).
  { split; [apply cos_gt_0; lra|]. replace (sqrt 2 / 2) with (cos (PI / 4)). - apply cos_decreasing_1; lra.
    - rewrite cos_PI4. assert (Q2 : sqrt 2 * sqrt 2 = 2) by (apply sqrt_sqrt; lra). assert (0 < sqrt 2) by (apply sqrt_lt_R0; lra).
      field_simplify_eq; lra. }
  destruct sqrt3_2 as [E3 P3]. assert (P2 : 0 < sqrt 2) by (apply sqrt_lt_R0; lra). unfold sun_north.
  assert (3 / 4 <= cos dec * cos omega) by nra.
  assert (3 / 4 * (sqrt 2 / 2) <= (cos dec * cos omega) * sin phi) by nra.
  assert (sin dec * cos phi <= 1 / 2 * (sqrt 2 / 2)) by nra.
  lra.
Qed.

Definition oslo : list (SolarCall RNum) :=
  setting (mkSolarInputs (N := RNum) (90 : R) 172%Z (0 : R) 12%Z (60 : R) AqClear Metric).

Lemma oslo_range : in_range (inputs_after oslo).
Proof.
  unfold oslo. rewrite inputs_setting. unfold in_range; cbn [in_azimuth in_day in_elevation in_hour in_latitude in_quality in_units].
  repeat split; try lra; try lia; discriminate.
Qed.

Lemma equator_noon_altitude : forall u q d e, u <> USNull -> q <> AqNull -> 1 <= altitude_after (equator u q d 12 e).
Proof.
  intros u q d e U Q. destruct (run_answers (equator u q d 12 e)) as (-> & _); try (rewrite equator_inputs; assumption).
  rewrite equator_inputs. cbn [in_latitude in_day in_hour]. apply equator_noon.
Qed.
