(** SolarRadiationSolver: the radiation in real arithmetic. *)
From Coq Require Import ZArith Bool List Reals Lra Lia Psatz.
From Verif Require Import Num NumFacts ModelBase ModelPolynomial ModelSolar SpecPolynomial SpecVector SpecSolar
  ProofReal ProofVector ProofPolynomial ProofSolar.
Import ListNotations.
Open Scope R_scope.

Definition sextic (c0 c1 c2 c3 c4 c5 c6 x : R) : R := c0 + x * (c1 + x * (c2 + x * (c3 + x * (c4 + x * (c5 + x * c6))))).

(** The coefficients as decimal fractions. *)
Definition atmosphere (u : UnitSystem) (q : AtmosphereQualityType) (x : R) : R :=
  match u, q with
  | Imperial, AqClear => sextic (-39241 / 10 ^ 4) (59276 / 10 ^ 4) (-17856 / 10 ^ 5) (3223 / 10 ^ 6) (-33549 / 10 ^ 9)
      (18053 / 10 ^ 11) (-37868 / 10 ^ 14) x
  | Imperial, AqIndustrial => sextic (49408 / 10 ^ 4) (13202 / 10 ^ 4) (61444 / 10 ^ 6) (-29411 / 10 ^ 7) (507752 / 10 ^ 10)
      (-403627 / 10 ^ 12) (122967 / 10 ^ 14) x
  | Metric, AqClear => sextic (-422391 / 10 ^ 4) (638044 / 10 ^ 4) (-19220 / 10 ^ 4) (346921 / 10 ^ 7) (-361118 / 10 ^ 9)
      (194318 / 10 ^ 11) (-407608 / 10 ^ 14) x
  | Metric, AqIndustrial => sextic (531821 / 10 ^ 4) (142110 / 10 ^ 4) (66138 / 10 ^ 5) (-31658 / 10 ^ 6) (54654 / 10 ^ 8)
      (-43446 / 10 ^ 10) (13236 / 10 ^ 12) x
  | _, _ => 0
  end.
Definition elevation_factor (u : UnitSystem) (x : R) : R :=
  match u with
  | Imperial => 1 + x * (3500 / 10 ^ 8 + x * (-1000 / 10 ^ 12))
  | _ => 1 + x * (1148 / 10 ^ 7 + x * (-1108 / 10 ^ 11))
  end.

Lemma coefficients_R : forall u q atm el, UpdatePolynomialCoefficients (N := RNum) u q = Some (atm, el) ->
  forall x, Y_list (N := RNum) atm x = atmosphere u q x /\ Y_list (N := RNum) el x = elevation_factor u x.
Proof.
  intros u q atm el E x. destruct u, q; cbn [UpdatePolynomialCoefficients] in E; try discriminate E; injection E as <- <-.
  all: rewrite !Y_list_R; unfold atmosphere, elevation_factor, sextic; cbn [peval]; rn; rewrite ?flit_R.
  all: cbn [powerRZ Pos.to_nat Pos.iter_op Nat.add pow]; rewrite ?Rmult_1_r, ?Rpow_c_Z.
  all: unfold powerRZ; repeat match goal with |- context [Pos.to_nat ?p] =>
    let v := eval compute in (Pos.to_nat p) in change (Pos.to_nat p) with v end; cbn [pow].
  all: split; lra.
Qed.
(** ** Bounds of the polynomials, by coefficients in the Bernstein basis *)

Lemma bernstein : forall c0 c1 c2 c3 c4 c5 c6 a b x, 0 <= c0 -> 0 <= c1 -> 0 <= c2 -> 0 <= c3 -> 0 <= c4 -> 0 <= c5 -> 0 <= c6 ->
  a <= x <= b ->
  0 <= c0 * (b - x) ^ 6 + c1 * (x - a) * (b - x) ^ 5 + c2 * (x - a) ^ 2 * (b - x) ^ 4 + c3 * (x - a) ^ 3 * (b - x) ^ 3
       + c4 * (x - a) ^ 4 * (b - x) ^ 2 + c5 * (x - a) ^ 5 * (b - x) + c6 * (x - a) ^ 6.
Proof.
  intros c0 c1 c2 c3 c4 c5 c6 a b x H0 H1 H2 H3 H4 H5 H6 [A B].
  assert (X : 0 <= x - a) by lra. assert (Y : 0 <= b - x) by lra.
  set (u := x - a) in *. set (v := b - x) in *. clearbody u v.
  assert (P : forall n, 0 <= u ^ n) by (intro; apply pow_le; exact X).
  assert (Q : forall n, 0 <= v ^ n) by (intro; apply pow_le; exact Y).
  repeat apply Rplus_le_le_0_compat; repeat apply Rmult_le_pos; auto; lra.
Qed.

Lemma mc_low : forall x, 1 <= x <= 91 -> 0 <= atmosphere Metric AqClear x - 1.
Proof.
  intros x H. assert (B := bernstein (233470411513799 / 12500000000000) (34485872089228377 / 6250000000000) (31414894437756057 / 2500000000000) (12319759738137479 / 625000000000) (38942069215655517 / 2500000000000) (38349239807913297 / 6250000000000) (12969679487461259 / 12500000000000) 1 91 x
    ltac:(lra) ltac:(lra) ltac:(lra) ltac:(lra) ltac:(lra) ltac:(lra) ltac:(lra) H).
  eapply (Rmult_le_reg_l 531441000000); [lra|]. rewrite Rmult_0_r. eapply Rle_trans; [exact B|]. right.
  unfold atmosphere, sextic. field.
Qed.

Lemma mc_high : forall x, 0 <= x <= 91 -> 0 <= (1040 / 1) - atmosphere Metric AqClear x.
Proof.
  intros x H. assert (B := bernstein (10822391 / 10000) (3436171 / 5000) (6237333 / 2000) (11041455109 / 10000000) (1422899549 / 500000000) (4955841417091 / 50000000000) (17820512538741 / 12500000000000) 0 91 x
    ltac:(lra) ltac:(lra) ltac:(lra) ltac:(lra) ltac:(lra) ltac:(lra) ltac:(lra) H).
  eapply (Rmult_le_reg_l 567869252041); [lra|]. rewrite Rmult_0_r. eapply Rle_trans; [exact B|]. right.
  unfold atmosphere, sextic. field.
Qed.

Lemma mc_low0 : forall x, 0 <= x <= 91 -> 0 <= atmosphere Metric AqClear x + 43.
Proof.
  intros x H. assert (B := bernstein (7609 / 10000) (29053829 / 5000) (26252667 / 2000) (205558544891 / 10000000) (8121077100451 / 500000000) (319944158582909 / 50000000000) (13519679487461259 / 12500000000000) 0 91 x
    ltac:(lra) ltac:(lra) ltac:(lra) ltac:(lra) ltac:(lra) ltac:(lra) ltac:(lra) H).
  eapply (Rmult_le_reg_l 567869252041); [lra|]. rewrite Rmult_0_r. eapply Rle_trans; [exact B|]. right.
  unfold atmosphere, sextic. field.
Qed.

Lemma mi_low : forall x, 1 <= x <= 91 -> 0 <= atmosphere Metric AqIndustrial x - 1.
Proof.
  intros x H. assert (B := bernstein (16755841052159 / 250000000000) (223978216466157 / 125000000000) (628393916754537 / 50000000000) (152215909926539 / 12500000000) (624186240269397 / 50000000000) (620583886721877 / 125000000000) (212324047735019 / 250000000000) 1 91 x
    ltac:(lra) ltac:(lra) ltac:(lra) ltac:(lra) ltac:(lra) ltac:(lra) ltac:(lra) H).
  eapply (Rmult_le_reg_l 531441000000); [lra|]. rewrite Rmult_0_r. eapply Rle_trans; [exact B|]. right.
  unfold atmosphere, sextic. field.
Qed.

Lemma mi_high : forall x, 0 <= x <= 91 -> 0 <= (1040 / 1) - atmosphere Metric AqIndustrial x.
Proof.
  intros x H. assert (B := bernstein (9868179 / 10000) (5784633 / 1250) (71484393 / 25000) (4376673799 / 500000) (154981239453 / 50000000) (6353928200673 / 5000000000) (47425952264981 / 250000000000) 0 91 x
    ltac:(lra) ltac:(lra) ltac:(lra) ltac:(lra) ltac:(lra) ltac:(lra) ltac:(lra) H).
  eapply (Rmult_le_reg_l 567869252041); [lra|]. rewrite Rmult_0_r. eapply Rle_trans; [exact B|]. right.
  unfold atmosphere, sextic. field.
Qed.

Lemma mi_low0 : forall x, 0 <= x <= 91 -> 0 <= atmosphere Metric AqIndustrial x.
Proof.
  intros x H. assert (B := bernstein (531821 / 10000) (2015367 / 1250) (318515607 / 25000) (6023326201 / 500000) (625018760547 / 50000000) (24846071799327 / 5000000000) (212574047735019 / 250000000000) 0 91 x
    ltac:(lra) ltac:(lra) ltac:(lra) ltac:(lra) ltac:(lra) ltac:(lra) ltac:(lra) H).
  eapply (Rmult_le_reg_l 567869252041); [lra|]. rewrite Rmult_0_r. eapply Rle_trans; [exact B|]. right.
  unfold atmosphere, sextic. field.
Qed.

Lemma ic_low : forall x, 1 <= x <= 91 -> 0 <= atmosphere Imperial AqClear x - 1.
Proof.
  intros x H. assert (B := bernstein (20703240778783 / 25000000000000) (6339627389761509 / 12500000000000) (5768980034788569 / 5000000000000) (2266366708987843 / 1250000000000) (7167421628722389 / 5000000000000) (7057319892991149 / 12500000000000) (2387365239928603 / 25000000000000) 1 91 x
    ltac:(lra) ltac:(lra) ltac:(lra) ltac:(lra) ltac:(lra) ltac:(lra) ltac:(lra) H).
  eapply (Rmult_le_reg_l 531441000000); [lra|]. rewrite Rmult_0_r. eapply Rle_trans; [exact B|]. right.
  unfold atmosphere, sextic. field.
Qed.

Lemma ic_high : forall x, 0 <= x <= 91 -> 0 <= (483 / 5) - atmosphere Imperial AqClear x.
Proof.
  intros x H. assert (B := bernstein (1005241 / 10000) (63733 / 1000) (14472943 / 50000) (102228107 / 1000000) (21027589 / 1000000000) (910754262897 / 100000000000) (2634760071397 / 25000000000000) 0 91 x
    ltac:(lra) ltac:(lra) ltac:(lra) ltac:(lra) ltac:(lra) ltac:(lra) ltac:(lra) H).
  eapply (Rmult_le_reg_l 567869252041); [lra|]. rewrite Rmult_0_r. eapply Rle_trans; [exact B|]. right.
  unfold atmosphere, sextic. field.
Qed.

Lemma ic_low0 : forall x, 0 <= x <= 91 -> 0 <= atmosphere Imperial AqClear x + 43.
Proof.
  intros x H. assert (B := bernstein (390759 / 10000) (773867 / 1000) (90227057 / 50000) (2689771893 / 1000000) (2093978972411 / 1000000000) (82849245737103 / 100000000000) (3487365239928603 / 25000000000000) 0 91 x
    ltac:(lra) ltac:(lra) ltac:(lra) ltac:(lra) ltac:(lra) ltac:(lra) ltac:(lra) H).
  eapply (Rmult_le_reg_l 567869252041); [lra|]. rewrite Rmult_0_r. eapply Rle_trans; [exact B|]. right.
  unfold atmosphere, sextic. field.
Qed.

Lemma ii_low : forall x, 1 <= x <= 91 -> 0 <= atmosphere Imperial AqIndustrial x - 1.
Proof.
  intros x H. assert (B := bernstein (531955327280267 / 100000000000000) (8050962037034391 / 50000000000000) (23079314098986081 / 20000000000000) (5565677744024957 / 5000000000000) (22923454788289761 / 20000000000000) (22790608307129751 / 50000000000000) (7800601252167947 / 100000000000000) 1 91 x
    ltac:(lra) ltac:(lra) ltac:(lra) ltac:(lra) ltac:(lra) ltac:(lra) ltac:(lra) H).
  eapply (Rmult_le_reg_l 531441000000); [lra|]. rewrite Rmult_0_r. eapply Rle_trans; [exact B|]. right.
  unfold atmosphere, sextic. field.
Qed.

Lemma ii_high : forall x, 0 <= x <= 91 -> 0 <= (791 / 10) - atmosphere Imperial AqIndustrial x.
Proof.
  intros x H. assert (B := bernstein (92699 / 1250) (324817 / 1000) (719809 / 250000) (4628586121 / 10000000) (15734412833 / 625000000) (12923655068377 / 1000000000000) (9398747832053 / 100000000000000) 0 91 x
    ltac:(lra) ltac:(lra) ltac:(lra) ltac:(lra) ltac:(lra) ltac:(lra) ltac:(lra) H).
  eapply (Rmult_le_reg_l 567869252041); [lra|]. rewrite Rmult_0_r. eapply Rle_trans; [exact B|]. right.
  unfold atmosphere, sextic. field.
Qed.

Lemma ii_low0 : forall x, 0 <= x <= 91 -> 0 <= atmosphere Imperial AqIndustrial x.
Proof.
  intros x H. assert (B := bernstein (3088 / 625) (149783 / 1000) (295905191 / 250000) (11191413879 / 10000000) (725828087167 / 625000000) (461676344931623 / 1000000000000) (7900601252167947 / 100000000000000) 0 91 x
    ltac:(lra) ltac:(lra) ltac:(lra) ltac:(lra) ltac:(lra) ltac:(lra) ltac:(lra) H).
  eapply (Rmult_le_reg_l 567869252041); [lra|]. rewrite Rmult_0_r. eapply Rle_trans; [exact B|]. right.
  unfold atmosphere, sextic. field.
Qed.

Lemma agree_c_lo : forall x, 0 <= x <= 91 -> 0 <= atmosphere Metric AqClear x - atmosphere Imperial AqClear x * (1562500 / 145161) + 1 / 5.
Proof.
  intros x H. assert (B := bernstein (289684549 / 1451610000) (885209969 / 725805000) (910607887 / 290322000) (6319946797451 / 1451610000000) (252169782473861 / 72580500000000) (3274510647311533 / 2419350000000000) (208715385142723949 / 1814512500000000000) 0 91 x
    ltac:(lra) ltac:(lra) ltac:(lra) ltac:(lra) ltac:(lra) ltac:(lra) ltac:(lra) H).
  eapply (Rmult_le_reg_l 567869252041); [lra|]. rewrite Rmult_0_r. eapply Rle_trans; [exact B|]. right.
  unfold atmosphere, sextic. field.
Qed.

Lemma agree_c_hi : forall x, 0 <= x <= 91 -> 0 <= 1 / 5 - (atmosphere Metric AqClear x - atmosphere Imperial AqClear x * (1562500 / 145161)).
Proof.
  intros x H. assert (B := bernstein (290959451 / 1451610000) (856722031 / 725805000) (831324113 / 290322000) (5292933202549 / 1451610000000) (183313217526139 / 72580500000000) (2531929352688467 / 2419350000000000) (517089614857276051 / 1814512500000000000) 0 91 x
    ltac:(lra) ltac:(lra) ltac:(lra) ltac:(lra) ltac:(lra) ltac:(lra) ltac:(lra) H).
  eapply (Rmult_le_reg_l 567869252041); [lra|]. rewrite Rmult_0_r. eapply Rle_trans; [exact B|]. right.
  unfold atmosphere, sextic. field.
Qed.

Lemma agree_i_lo : forall x, 0 <= x <= 91 -> 0 <= atmosphere Metric AqIndustrial x - atmosphere Imperial AqIndustrial x * (1562500 / 145161) + 1 / 5.
Proof.
  intros x H. assert (B := bernstein (289990181 / 1451610000) (112754356 / 90725625) (11745008977 / 3629025000) (17398187027 / 4032250000) (21611553888067 / 7258050000000) (1410299367603919 / 1451610000000000) (3994335976066787 / 48387000000000000) 0 91 x
    ltac:(lra) ltac:(lra) ltac:(lra) ltac:(lra) ltac:(lra) ltac:(lra) ltac:(lra) H).
  eapply (Rmult_le_reg_l 567869252041); [lra|]. rewrite Rmult_0_r. eapply Rle_trans; [exact B|]. right.
  unfold atmosphere, sextic. field.
Qed.

Lemma agree_i_hi : forall x, 0 <= x <= 91 -> 0 <= 1 / 5 - (atmosphere Metric AqIndustrial x - atmosphere Imperial AqIndustrial x * (1562500 / 145161)).
Proof.
  intros x H. assert (B := bernstein (290653819 / 1451610000) (104987144 / 90725625) (10029141023 / 3629025000) (14859812973 / 4032250000) (21936746111933 / 7258050000000) (2073564632396081 / 1451610000000000) (15360464023933213 / 48387000000000000) 0 91 x
    ltac:(lra) ltac:(lra) ltac:(lra) ltac:(lra) ltac:(lra) ltac:(lra) ltac:(lra) H).
  eapply (Rmult_le_reg_l 567869252041); [lra|]. rewrite Rmult_0_r. eapply Rle_trans; [exact B|]. right.
  unfold atmosphere, sextic. field.
Qed.


Lemma day_positive : forall u q x, u <> USNull -> q <> AqNull -> 1 <= x <= 91 -> 0 < atmosphere u q x.
Proof.
  intros u q x U Q H. destruct u, q; try congruence.
  - assert (B := ic_low x H). lra.
  - assert (B := ii_low x H). lra.
  - assert (B := mc_low x H). lra.
  - assert (B := mi_low x H). lra.
Qed.

Lemma day_bounds : forall u q x, u <> USNull -> q <> AqNull -> 0 <= x <= 91 ->
  -47 <= si_radiation u (atmosphere u q x) <= 1040.
Proof.
  intros u q x U Q H. destruct u, q; try congruence; cbn [si_radiation].
  - assert (B := ic_low0 x H). assert (C := ic_high x H). assert (D := ic_low x).
    destruct (Rle_dec 1 x) as [L|L]; [assert (0 <= atmosphere Imperial AqClear x - 1) by (apply D; lra); lra|].
    assert (-4 <= atmosphere Imperial AqClear x); [|lra]. unfold atmosphere, sextic. nra.
  - assert (B := ii_low0 x H). assert (C := ii_high x H). lra.
  - assert (B := mc_low0 x H). assert (C := mc_high x H). lra.
  - assert (B := mi_low0 x H). assert (C := mi_high x H). lra.
Qed.

Lemma units_agree : forall q x, q <> AqNull -> 0 <= x <= 91 ->
  Rabs (atmosphere Metric q x - si_radiation Imperial (atmosphere Imperial q x)) <= 1 / 5.
Proof.
  intros q x Q H. cbn [si_radiation].
  destruct q; try congruence.
  - assert (A := agree_c_lo x H). assert (B := agree_c_hi x H). apply Rabs_le. lra.
  - assert (A := agree_i_lo x H). assert (B := agree_i_hi x H). apply Rabs_le. lra.
Qed.

Lemma factor_bounds : forall u e, u <> USNull -> 0 <= si_elevation u e <= 12000 -> 0 < elevation_factor u e <= 1307 / 1000.
Proof.
  intros u e U H. destruct u; try congruence; cbn [si_elevation elevation_factor] in *.
  - assert (0 <= e <= 40000) by lra. assert (Q := Rle_0_sqr (e - 17500)). unfold Rsqr in Q. split; nra.
  - assert (Q := Rle_0_sqr (e - 5180)). unfold Rsqr in Q. split; nra.
Qed.

(** ** The incidence *)

Definition incidence (h z a : R) : R := sqrt (1 - (cos (rad h) * cos (rad z - rad a)) * (cos (rad h) * cos (rad z - rad a))).

Lemma prod_bound : forall x y, -1 <= cos x * cos y <= 1.
Proof. intros x y. assert (A := COS_bound x). assert (B := COS_bound y). split; nra. Qed.

Lemma SolveRadiation_R : forall u q atm el (h z a e : R), UpdatePolynomialCoefficients (N := RNum) u q = Some (atm, el) ->
  SolveRadiation (N := RNum) atm el h z a e = atmosphere u q h * incidence h z a * elevation_factor u e.
Proof.
  intros u q atm el h z a e E. unfold SolveRadiation.
  rewrite (proj1 (coefficients_R u q atm el E h)), (proj2 (coefficients_R u q atm el E e)).
  unfold AngleIncidence. rewrite deg_rad, !deg2rad_R. rn. fold (rad h) (rad z) (rad a).
  rewrite sin_acos by apply prod_bound. unfold incidence, Rsqr. reflexivity.
Qed.

Lemma incidence_bounds : forall h z a, Rabs (sin (rad h)) <= incidence h z a <= 1.
Proof.
  intros h z a. unfold incidence. set (c := cos (rad z - rad a)). assert (C : -1 <= c <= 1) by apply COS_bound.
  assert (E := sin2_cos2 (rad h)). unfold Rsqr in E. split.
  - rewrite <- sqrt_Rsqr_abs. apply sqrt_le_1_alt. unfold Rsqr.
    assert (0 <= cos (rad h) * cos (rad h) * (1 - c * c)).
    { apply Rmult_le_pos; [apply Rle_0_sqr|nra]. } nra.
  - apply Rle_trans with (sqrt 1); [|rewrite sqrt_1; lra]. apply sqrt_le_1_alt. assert (G := Rle_0_sqr (cos (rad h) * c)). unfold Rsqr in G. lra.
Qed.

(** ** Answers of a history *)

Lemma run_answers : forall ks (i := inputs_after (N := RNum) ks), in_units i <> USNull -> in_quality i <> AqNull ->
  let h := altitude_of (in_latitude i) (in_day i) (in_hour i) in
  let z := azimuth_of (in_latitude i) (in_day i) (in_hour i) in
  (fst (sr_AltitudeSun (sr_run (N := RNum) SolarSolver_default ks)) : R) = h /\
  (fst (sr_AzimuthSun (sr_run (N := RNum) SolarSolver_default ks)) : R) = z /\
  (fst (sr_Radiation (sr_run (N := RNum) SolarSolver_default ks)) : R) =
    atmosphere (in_units i) (in_quality i) h * incidence h z (in_azimuth i) * elevation_factor (in_units i) (in_elevation i).
Proof.
  intros ks i U Q h z. destruct (run_inv (N := RNum) ks) as [I E]. destruct (answers _ I) as (A & B & C).
  destruct (solved_R i U Q) as (atm & el & Ec & Es).
  rewrite A, B, C, E. fold i. rewrite Es. rewrite (SolveRadiation_R _ _ _ _ _ _ _ _ Ec). repeat split.
Qed.

Lemma altitude_range : forall (l : R) d h, -91 < altitude_of l d h < 91.
Proof.
  intros l d h. destruct (altitude_sin l d h) as [_ B]. assert (P := PI_K). unfold rad, K in *. split; nra.
Qed.

Lemma altitude_sign : forall (l : R) d h, altitude_of l d h < 0 -> sin (rad (altitude_of l d h)) < 0.
Proof.
  intros l d h H. assert (B := altitude_range l d h). assert (P := PI_K). apply sin_lt_0_var; unfold rad, K in *; nra.
Qed.

Lemma clear_night : forall u x, u <> USNull -> x <= 0 -> atmosphere u AqClear x < 0.
Proof.
  intros u x U H. assert (X2 : 0 <= x * x) by nra. assert (X3 : x * x * x <= 0) by nra.
  assert (X4 : 0 <= x * x * (x * x)) by nra. assert (X5 : x * x * (x * x) * x <= 0) by nra.
  assert (X6 : 0 <= x * x * x * (x * x * x)) by nra.
  destruct u; try congruence; unfold atmosphere, sextic.
  - replace (_ + _) with (-39241 / 10 ^ 4 + 59276 / 10 ^ 4 * x + -17856 / 10 ^ 5 * (x * x) + 3223 / 10 ^ 6 * (x * x * x)
      + -33549 / 10 ^ 9 * (x * x * (x * x)) + 18053 / 10 ^ 11 * (x * x * (x * x) * x) + -37868 / 10 ^ 14 * (x * x * x * (x * x * x)))
      by field. lra.
  - replace (_ + _) with (-422391 / 10 ^ 4 + 638044 / 10 ^ 4 * x + -19220 / 10 ^ 4 * (x * x) + 346921 / 10 ^ 7 * (x * x * x)
      + -361118 / 10 ^ 9 * (x * x * (x * x)) + 194318 / 10 ^ 11 * (x * x * (x * x) * x) + -407608 / 10 ^ 14 * (x * x * x * (x * x * x)))
      by field. lra.
Qed.

Lemma industrial_night : forall u x, u <> USNull -> x <= -45 -> 5000 <= si_radiation u (atmosphere u AqIndustrial x).
Proof.
  intros u x U H. set (y := - x - 45). assert (Y : 0 <= y) by (unfold y; lra).
  assert (Y2 : 0 <= y * y) by nra. assert (Y3 : 0 <= y * y * y) by nra. assert (Y4 : 0 <= y * y * (y * y)) by nra.
  assert (Y5 : 0 <= y * y * (y * y) * y) by nra. assert (Y6 : 0 <= y * y * y * (y * y * y)) by nra.
  replace x with (- y - 45) by (unfold y; lra). clearbody y.
  destruct u; try congruence; unfold atmosphere, sextic, si_radiation; lra.
Qed.
