(** SolarRadiationSolver: the beam against the altitude of the sun, the elevation and the
    quality of the atmosphere, and the angle at which it meets the cable. *)
From Coq Require Import ZArith Bool List Reals Lra Lia Psatz.
From Verif Require Import Num NumFacts ModelBase ModelPolynomial ModelSolar SpecPolynomial SpecVector SpecSolar
  ProofReal ProofVector ProofPolynomial ProofSolar ProofSolarRad ProofSolarCases.
Import ListNotations.
Open Scope R_scope.

(** ** The slope of the polynomials *)

Definition quintic (c1 c2 c3 c4 c5 c6 x : R) : R := c1 + 2 * c2 * x + 3 * c3 * x ^ 2 + 4 * c4 * x ^ 3 + 5 * c5 * x ^ 4 + 6 * c6 * x ^ 5.

Definition slope (u : UnitSystem) (q : AtmosphereQualityType) (x : R) : R :=
  match u, q with
  | Imperial, AqClear => quintic (59276 / 10 ^ 4) (-17856 / 10 ^ 5) (3223 / 10 ^ 6) (-33549 / 10 ^ 9)
      (18053 / 10 ^ 11) (-37868 / 10 ^ 14) x
  | Imperial, AqIndustrial => quintic (13202 / 10 ^ 4) (61444 / 10 ^ 6) (-29411 / 10 ^ 7) (507752 / 10 ^ 10)
      (-403627 / 10 ^ 12) (122967 / 10 ^ 14) x
  | Metric, AqClear => quintic (638044 / 10 ^ 4) (-19220 / 10 ^ 4) (346921 / 10 ^ 7) (-361118 / 10 ^ 9)
      (194318 / 10 ^ 11) (-407608 / 10 ^ 14) x
  | Metric, AqIndustrial => quintic (142110 / 10 ^ 4) (66138 / 10 ^ 5) (-31658 / 10 ^ 6) (54654 / 10 ^ 8)
      (-43446 / 10 ^ 10) (13236 / 10 ^ 12) x
  | _, _ => 0
  end.
Lemma mc_rise0 : forall x, 0 <= x <= 45 -> 0 <= slope Metric AqClear x - (1 / 10).
Proof.
  intros x H. assert (B := bernstein (159261 / 2500) (130779 / 625) (120568203 / 400000) (255678519 / 1000000) (2164028391 / 16000000) (81263026953 / 2000000000) (5179750539 / 1000000000) 0 45 x
    ltac:(lra) ltac:(lra) ltac:(lra) ltac:(lra) ltac:(lra) ltac:(lra) ltac:(lra) H).
  eapply (Rmult_le_reg_l (8303765625 / 1)); [lra|]. rewrite Rmult_0_r. eapply Rle_trans; [exact B|]. right.
  unfold slope, quintic. field.
Qed.

Lemma mc_rise1 : forall x, 45 <= x <= 91 -> 0 <= slope Metric AqClear x - (1 / 10).
Proof.
  intros x H. assert (B := bernstein (5179750539 / 1000000000) (170505631 / 8000000) (97750482529 / 2500000000) (353585079831 / 12500000000) (569927944299 / 125000000000) (420482660811 / 3125000000000) (699373131209 / 781250000000) 45 91 x
    ltac:(lra) ltac:(lra) ltac:(lra) ltac:(lra) ltac:(lra) ltac:(lra) ltac:(lra) H).
  eapply (Rmult_le_reg_l (9474296896 / 1)); [lra|]. rewrite Rmult_0_r. eapply Rle_trans; [exact B|]. right.
  unfold slope, quintic. field.
Qed.

Lemma mi_rise0 : forall x, 0 <= x <= 45 -> 0 <= slope Metric AqIndustrial x - (1 / 10).
Proof.
  intros x H. assert (B := bernstein (14111 / 1000) (720951 / 5000) (6339273 / 20000) (30738643 / 100000) (258458421 / 1600000) (1885512873 / 40000000) (61032887 / 10000000) 0 45 x
    ltac:(lra) ltac:(lra) ltac:(lra) ltac:(lra) ltac:(lra) ltac:(lra) ltac:(lra) H).
  eapply (Rmult_le_reg_l (8303765625 / 1)); [lra|]. rewrite Rmult_0_r. eapply Rle_trans; [exact B|]. right.
  unfold slope, quintic. field.
Qed.

Lemma mi_rise1 : forall x, 45 <= x <= 91 -> 0 <= slope Metric AqIndustrial x - (1 / 10).
Proof.
  intros x H. assert (B := bernstein (61032887 / 10000000) (103471629 / 4000000) (5596871943 / 100000000) (18997371601 / 250000000) (26267486391 / 625000000) (224957913201 / 62500000000) (84795869351 / 62500000000) 45 91 x
    ltac:(lra) ltac:(lra) ltac:(lra) ltac:(lra) ltac:(lra) ltac:(lra) ltac:(lra) H).
  eapply (Rmult_le_reg_l (9474296896 / 1)); [lra|]. rewrite Rmult_0_r. eapply Rle_trans; [exact B|]. right.
  unfold slope, quintic. field.
Qed.

Lemma ic_rise0 : forall x, 0 <= x <= 45 -> 0 <= slope Imperial AqClear x - (1 / 100).
Proof.
  intros x H. assert (B := bernstein (7397 / 1250) (12147 / 625) (1119669 / 40000) (47476579 / 2000000) (16069053 / 1280000) (15081056601 / 4000000000) (240240497 / 500000000) 0 45 x
    ltac:(lra) ltac:(lra) ltac:(lra) ltac:(lra) ltac:(lra) ltac:(lra) ltac:(lra) H).
  eapply (Rmult_le_reg_l (8303765625 / 1)); [lra|]. rewrite Rmult_0_r. eapply Rle_trans; [exact B|]. right.
  unfold slope, quintic. field.
Qed.

Lemma ic_rise1 : forall x, 45 <= x <= 91 -> 0 <= slope Imperial AqClear x - (1 / 100).
Proof.
  intros x H. assert (B := bernstein (240240497 / 500000000) (158063061 / 80000000) (36224549361 / 10000000000) (65398101077 / 25000000000) (52041223079 / 125000000000) (66796733837 / 6250000000000) (519587926637 / 6250000000000) 45 91 x
    ltac:(lra) ltac:(lra) ltac:(lra) ltac:(lra) ltac:(lra) ltac:(lra) ltac:(lra) H).
  eapply (Rmult_le_reg_l (9474296896 / 1)); [lra|]. rewrite Rmult_0_r. eapply Rle_trans; [exact B|]. right.
  unfold slope, quintic. field.
Qed.

Lemma ii_rise0 : forall x, 0 <= x <= 45 -> 0 <= slope Imperial AqIndustrial x - (1 / 100).
Proof.
  intros x H. assert (B := bernstein (6551 / 5000) (334779 / 25000) (11774247 / 400000) (17839019 / 625000) (4798902837 / 320000000) (70002779649 / 16000000000) (9062004199 / 16000000000) 0 45 x
    ltac:(lra) ltac:(lra) ltac:(lra) ltac:(lra) ltac:(lra) ltac:(lra) ltac:(lra) H).
  eapply (Rmult_le_reg_l (8303765625 / 1)); [lra|]. rewrite Rmult_0_r. eapply Rle_trans; [exact B|]. right.
  unfold slope, quintic. field.
Qed.

Lemma ii_rise1 : forall x, 45 <= x <= 91 -> 0 <= slope Imperial AqIndustrial x - (1 / 100).
Proof.
  intros x H. assert (B := bernstein (9062004199 / 16000000000) (59990501 / 25000000) (415315046123 / 80000000000) (352492927599 / 50000000000) (7796457953889 / 2000000000000) (2077405843197 / 6250000000000) (6291060548601 / 50000000000000) 45 91 x
    ltac:(lra) ltac:(lra) ltac:(lra) ltac:(lra) ltac:(lra) ltac:(lra) ltac:(lra) H).
  eapply (Rmult_le_reg_l (9474296896 / 1)); [lra|]. rewrite Rmult_0_r. eapply Rle_trans; [exact B|]. right.
  unfold slope, quintic. field.
Qed.

Lemma m_clearer : forall x, 3 <= x <= 91 -> 0 <= atmosphere Metric AqClear x - atmosphere Metric AqIndustrial x - 1.
Proof.
  intros x H. assert (B := bernstein (385350346400421 / 12500000000000) (20840037859439311 / 6250000000000) (1154187586102767 / 2500000000000) (4557304810926533 / 625000000000) (7676990062347503 / 2500000000000) (7276776268048591 / 6250000000000) (2340977100710309 / 12500000000000) 3 91 x
    ltac:(lra) ltac:(lra) ltac:(lra) ltac:(lra) ltac:(lra) ltac:(lra) ltac:(lra) H).
  eapply (Rmult_le_reg_l (464404086784 / 1)); [lra|]. rewrite Rmult_0_r. eapply Rle_trans; [exact B|]. right.
  unfold atmosphere, sextic. field.
Qed.

Lemma m_dark : forall x, 0 <= x <= (1 / 4) -> 0 <= - atmosphere Metric AqClear x - 1.
Proof.
  intros x H. assert (B := bernstein (412391 / 10000) (462967 / 2000) (4311609 / 8000) (426080613079 / 640000000) (58853712027959 / 128000000000) (8609688403310041 / 51200000000000) (1300868318446491951 / 51200000000000000) 0 (1 / 4) x
    ltac:(lra) ltac:(lra) ltac:(lra) ltac:(lra) ltac:(lra) ltac:(lra) ltac:(lra) H).
  eapply (Rmult_le_reg_l (1 / 4096)); [lra|]. rewrite Rmult_0_r. eapply Rle_trans; [exact B|]. right.
  unfold atmosphere, sextic. field.
Qed.

Lemma i_clearer : forall x, 3 <= x <= 91 -> 0 <= atmosphere Imperial AqClear x - atmosphere Imperial AqIndustrial x - 1.
Proof.
  intros x H. assert (B := bernstein (39140104349277 / 20000000000000) (3043362167057247 / 10000000000000) (117168221979239 / 4000000000000) (659268672756581 / 1000000000000) (1086523878827191 / 4000000000000) (1026880510112767 / 10000000000000) (329771941509293 / 20000000000000) 3 91 x
    ltac:(lra) ltac:(lra) ltac:(lra) ltac:(lra) ltac:(lra) ltac:(lra) ltac:(lra) H).
  eapply (Rmult_le_reg_l (464404086784 / 1)); [lra|]. rewrite Rmult_0_r. eapply Rle_trans; [exact B|]. right.
  unfold atmosphere, sextic. field.
Qed.

Lemma i_dark : forall x, 0 <= x <= (1 / 4) -> 0 <= - atmosphere Imperial AqClear x - 1.
Proof.
  intros x H. assert (B := bernstein (29241 / 10000) (160627 / 10000) (911579 / 25000) (2797285737 / 64000000) (7451983117549 / 256000000000) (1042389932421147 / 102400000000000) (148818920601556467 / 102400000000000000) 0 (1 / 4) x
    ltac:(lra) ltac:(lra) ltac:(lra) ltac:(lra) ltac:(lra) ltac:(lra) ltac:(lra) H).
  eapply (Rmult_le_reg_l (1 / 4096)); [lra|]. rewrite Rmult_0_r. eapply Rle_trans; [exact B|]. right.
  unfold atmosphere, sextic. field.
Qed.


Lemma slope_positive : forall u q x, u <> USNull -> q <> AqNull -> 0 <= x <= 91 -> 0 < slope u q x.
Proof.
  intros u q x U Q H. destruct u, q; try congruence; destruct (Rle_dec x 45).
  all: try (assert (B := mc_rise0 x ltac:(lra)); lra); try (assert (B := mc_rise1 x ltac:(lra)); lra).
  all: try (assert (B := mi_rise0 x ltac:(lra)); lra); try (assert (B := mi_rise1 x ltac:(lra)); lra).
  all: try (assert (B := ic_rise0 x ltac:(lra)); lra); try (assert (B := ic_rise1 x ltac:(lra)); lra).
  all: try (assert (B := ii_rise0 x ltac:(lra)); lra); try (assert (B := ii_rise1 x ltac:(lra)); lra).
Qed.

Lemma horner_deriv : forall c (g : R -> R) x l, derivable_pt_lim g x l -> derivable_pt_lim (fun t => c + t * g t) x (g x + x * l).
Proof.
  intros c g x l D. replace (g x + x * l) with (0 + (1 * g x + x * l)) by ring.
  apply (derivable_pt_lim_plus (fct_cte c) (fun t => t * g t)); [apply derivable_pt_lim_const|].
  apply (derivable_pt_lim_mult id g); [apply derivable_pt_lim_id|exact D].
Qed.

Lemma sextic_deriv : forall c0 c1 c2 c3 c4 c5 c6 x,
  derivable_pt_lim (sextic c0 c1 c2 c3 c4 c5 c6) x (quintic c1 c2 c3 c4 c5 c6 x).
Proof.
  intros. unfold sextic.
  assert (D := horner_deriv c0 _ x _ (horner_deriv c1 _ x _ (horner_deriv c2 _ x _ (horner_deriv c3 _ x _
    (horner_deriv c4 _ x _ (horner_deriv c5 _ x _ (derivable_pt_lim_const c6 x))))))).
  cbv beta in D. unfold fct_cte in D.
  eapply eq_rect; [exact D|]. unfold quintic. ring.
Qed.

Lemma atmosphere_deriv : forall u q x, u <> USNull -> q <> AqNull -> derivable_pt_lim (atmosphere u q) x (slope u q x).
Proof. intros u q x U Q. destruct u, q; try congruence; apply sextic_deriv. Qed.

Lemma atmosphere_rises : forall u q x y, u <> USNull -> q <> AqNull -> 0 <= x -> x < y -> y <= 91 -> atmosphere u q x < atmosphere u q y.
Proof.
  intros u q x y U Q H0 H1 H2.
  destruct (MVT_cor2 (atmosphere u q) (slope u q) x y H1) as (c & E & C).
  { intros c _. apply atmosphere_deriv; assumption. }
  assert (P := slope_positive u q c U Q ltac:(lra)). nra.
Qed.

Lemma clear_over : forall u x, u <> USNull -> 3 <= x <= 91 -> atmosphere u AqIndustrial x < atmosphere u AqClear x.
Proof.
  intros u x U H. destruct u; try congruence; [assert (B := i_clearer x H)|assert (B := m_clearer x H)]; lra.
Qed.

Lemma clear_dark : forall u x, u <> USNull -> 0 <= x <= 1 / 4 -> atmosphere u AqClear x < 0.
Proof. intros u x U H. destruct u; try congruence; [assert (B := i_dark x H)|assert (B := m_dark x H)]; lra. Qed.

Lemma factor_rises : forall u e e', u <> USNull -> 0 <= si_elevation u e -> si_elevation u e < si_elevation u e' -> si_elevation u e' <= 5000 ->
  elevation_factor u e < elevation_factor u e'.
Proof. intros u e e' U H0 H1 H2. unfold si_elevation, elevation_factor in *. destruct u; try congruence; nra. Qed.

(** ** The law *)

Definition beam_of (u : UnitSystem) (q : AtmosphereQualityType) (h e : R) : R := atmosphere u q h * elevation_factor u e.

Lemma beam_law : forall ks (i := inputs_after (N := RNum) ks), in_range i ->
  exists alt azi cab theta, about_degrees (altitude_after ks) alt /\ about_degrees (azimuth_after ks) azi /\
    about_degrees (in_azimuth i) cab /\ 0 <= theta <= PI /\ cos theta = cos alt * cos (azi - cab) /\
    radiation_after ks = beam_of (in_units i) (in_quality i) (altitude_after ks) (in_elevation i) * sin theta.
Proof.
  intros ks i (_ & _ & _ & _ & _ & Q & U). destruct (run_answers ks U Q) as (A & B & C). fold i in A, B, C, Q, U. rewrite A, B, C.
  set (h := altitude_of (in_latitude i) (in_day i) (in_hour i)). set (z := azimuth_of (in_latitude i) (in_day i) (in_hour i)).
  exists (rad h), (rad z), (rad (in_azimuth i)), (acos (cos (rad h) * cos (rad z - rad (in_azimuth i)))).
  split; [apply about_rad|]. split; [apply about_rad|]. split; [apply about_rad|].
  assert (PB := prod_bound (rad h) (rad z - rad (in_azimuth i))).
  split; [apply acos_bound|]. split; [apply cos_acos; exact PB|].
  rewrite sin_acos by exact PB. unfold beam_of, incidence, Rsqr. ring.
Qed.

Lemma beam_altitude : forall u q e h h', u <> USNull -> q <> AqNull -> 0 <= si_elevation u e <= 12000 -> 0 <= h -> h < h' -> h' <= 91 ->
  beam_of u q h e < beam_of u q h' e.
Proof.
  intros u q e h h' U Q E H0 H1 H2. unfold beam_of. apply Rmult_lt_compat_r; [apply factor_bounds; assumption|].
  apply atmosphere_rises; assumption.
Qed.

Lemma beam_elevation : forall u q h e e', u <> USNull -> q <> AqNull -> 1 <= h <= 91 -> 0 <= si_elevation u e ->
  si_elevation u e < si_elevation u e' -> si_elevation u e' <= 5000 -> beam_of u q h e < beam_of u q h e'.
Proof.
  intros u q h e e' U Q H E0 E1 E2. unfold beam_of. apply Rmult_lt_compat_l; [apply day_positive; assumption|].
  apply factor_rises; assumption.
Qed.

Lemma beam_exists : exists beam : UnitSystem -> AtmosphereQualityType -> R -> R -> R,
  (forall ks (i := inputs_after (N := RNum) ks), in_range i ->
    exists alt azi cab theta, about_degrees (altitude_after ks) alt /\ about_degrees (azimuth_after ks) azi /\
      about_degrees (in_azimuth i) cab /\ 0 <= theta <= PI /\ cos theta = cos alt * cos (azi - cab) /\
      radiation_after ks = beam (in_units i) (in_quality i) (altitude_after ks) (in_elevation i) * sin theta) /\
  (forall u q e h h', u <> USNull -> q <> AqNull -> 0 <= si_elevation u e <= 12000 -> 0 <= h -> h < h' -> h' <= 91 ->
    beam u q h e < beam u q h' e) /\
  (forall u q h e e', u <> USNull -> q <> AqNull -> 1 <= h <= 91 -> 0 <= si_elevation u e ->
    si_elevation u e < si_elevation u e' -> si_elevation u e' <= 5000 -> beam u q h e < beam u q h e').
Proof. exists beam_of. split; [exact beam_law|]. split; [exact beam_altitude|exact beam_elevation]. Qed.

(** ** Clear and industrial atmospheres *)

Lemma quality_api : forall ks ks' (i := inputs_after (N := RNum) ks) (j := inputs_after (N := RNum) ks'), in_range i -> in_range j ->
  in_azimuth i = in_azimuth j -> in_day i = in_day j -> in_elevation i = in_elevation j -> in_hour i = in_hour j ->
  in_latitude i = in_latitude j -> in_units i = in_units j -> in_quality i = AqClear -> in_quality j = AqIndustrial ->
  si_elevation (in_units i) (in_elevation i) <= 12000 -> 3 <= altitude_after ks -> radiation_after ks' < radiation_after ks.
Proof.
  intros ks ks' i j Gi Gj E1 E2 E3 E4 E5 E6 Qi Qj Hm. destruct Gi as (_ & _ & He & _ & _ & Q & U). destruct Gj as (_ & _ & _ & _ & _ & Q' & U').
  destruct (run_answers ks U Q) as (A & _ & C). destruct (run_answers ks' U' Q') as (_ & _ & C').
  fold i in A, C, He, Q, U. fold j in C', Q', U'. rewrite A, C, C', <- E1, <- E2, <- E3, <- E4, <- E5, <- E6, Qi, Qj. clear A C C'. intros L.
  assert (RG := altitude_range (in_latitude i) (in_day i) (in_hour i)).
  assert (B := proj2 (altitude_sin (in_latitude i) (in_day i) (in_hour i))).
  set (h := altitude_of (in_latitude i) (in_day i) (in_hour i)) in *. set (z := azimuth_of (in_latitude i) (in_day i) (in_hour i)).
  assert (IB := incidence_bounds h z (in_azimuth i)).
  assert (S : 0 < sin (rad h)).
  { apply sin_gt_0; [unfold rad, K in *; lra|]. assert (P := PI_RGT_0). lra. }
  rewrite Rabs_right in IB by lra.
  assert (F := factor_bounds (in_units i) (in_elevation i) U).
  assert (F' : 0 < elevation_factor (in_units i) (in_elevation i)).
  { apply F. split; [|exact Hm]. unfold si_elevation. destruct (in_units i); lra. }
  apply Rmult_lt_compat_r; [exact F'|]. apply Rmult_lt_compat_r; [lra|]. apply clear_over; [exact U|lra].
Qed.

Lemma equator_sunrise : forall d, 0 < altitude_of 0 d 6 <= 1 / 4 /\ 0 < sin (rad (altitude_of 0 d 6)).
Proof.
  intros d. assert (U := equator_up d 6). replace (omega_of 6) with (- (K / 2)) in U by (unfold omega_of, rad; cbn; lra).
  rewrite cos_neg in U. assert (C := dec_cos d). destruct sqrt3_2 as [_ P3]. assert (D := COS_bound (dec_of d)).
  assert (P := PI_K). destruct (altitude_sin 0 d 6) as [_ B].
  assert (E : cos (K / 2) = sin (PI / 2 - K / 2)) by (rewrite <- cos_shift; f_equal; lra).
  assert (S0 : 0 < cos (K / 2)) by (apply cos_gt_0; unfold K in *; lra).
  assert (S1 : cos (K / 2) <= PI / 2 - K / 2).
  { rewrite E. left. apply sin_lt_x. unfold K in *; lra. }
  assert (S : 0 < sin (rad (altitude_of 0 d 6)) <= PI / 2 - K / 2) by (rewrite U; split; nra).
  set (h := altitude_of 0 d 6) in *. split; [|lra].
  split.
  - destruct (Rlt_dec 0 h) as [L|L]; [exact L|]. exfalso.
    assert (sin (rad h) <= sin 0). { apply sin_incr_1; unfold rad, K in *; lra. } rewrite sin_0 in *. lra.
  - destruct (Rle_dec h (1 / 4)) as [L|L]; [exact L|]. exfalso.
    assert (T : sin (rad (1 / 4)) < sin (rad h)). { apply sin_increasing_1; unfold rad, K in *; lra. }
    assert (V : rad (1 / 4) / 2 <= sin (rad (1 / 4))).
    { assert (X : 0 <= rad (1 / 4) <= 4) by (unfold rad, K; lra).
      assert (G := proj1 (sin_bound (rad (1 / 4)) 0 ltac:(lra) ltac:(unfold rad, K in *; lra))).
      unfold sin_approx, sum_f_R0, sin_term in G. cbn in G. unfold rad, K in *. lra. }
    unfold rad, K in *. lra.
Qed.

Lemma sunrise_dark : exists ks ks', let i := inputs_after (N := RNum) ks in let j := inputs_after (N := RNum) ks' in
  in_range i /\ in_range j /\ 
  in_azimuth i = in_azimuth j /\ in_day i = in_day j /\ in_elevation i = in_elevation j /\ in_hour i = in_hour j /\
  in_latitude i = in_latitude j /\ in_units i = in_units j /\ in_quality i = AqClear /\ in_quality j = AqIndustrial /\
  0 < altitude_after ks /\ radiation_after ks < 0 < radiation_after ks'.
Proof.
  exists (equator Metric AqClear 100 6 0), (equator Metric AqIndustrial 100 6 0).
  assert (G1 := equator_range Metric AqClear 100 6 0 ltac:(discriminate) ltac:(discriminate) ltac:(lia) ltac:(lia) ltac:(lra)).
  assert (G2 := equator_range Metric AqIndustrial 100 6 0 ltac:(discriminate) ltac:(discriminate) ltac:(lia) ltac:(lia) ltac:(lra)).
  destruct (run_answers (equator Metric AqClear 100 6 0) ltac:(discriminate) ltac:(discriminate)) as (A & _ & C).
  destruct (run_answers (equator Metric AqIndustrial 100 6 0) ltac:(discriminate) ltac:(discriminate)) as (_ & _ & C').
  cbv zeta. split; [exact G1|]. split; [exact G2|].
  rewrite A, C, C', !equator_inputs. cbn [in_azimuth in_day in_elevation in_hour in_latitude in_quality in_units].
  do 8 (split; [reflexivity|]). destruct (equator_sunrise 100) as (H & S). split; [apply H|].
  set (h := altitude_of 0 100 6) in *. set (z := azimuth_of 0 100 6).
  assert (IB := proj1 (incidence_bounds h z 90)). rewrite Rabs_right in IB by lra.
  assert (D := clear_dark Metric h ltac:(discriminate) ltac:(lra)).
  assert (R0 := atmosphere_rises Metric AqIndustrial 0 h ltac:(discriminate) ltac:(discriminate) ltac:(lra) (proj1 H) ltac:(lra)).
  assert (Z0 := mi_low0 0 ltac:(lra)).
  assert (F1 : elevation_factor Metric 0 = 1) by (cbn [elevation_factor]; ring). rewrite F1.
  split; nra.
Qed.

Lemma equator_noon_three : forall u q d e, u <> USNull -> q <> AqNull -> 3 <= altitude_after (equator u q d 12 e).
Proof.
  intros u q d e U Q. destruct (run_answers (equator u q d 12 e) U Q) as (-> & _ & _).
  rewrite equator_inputs. cbn [in_day in_hour in_latitude].
  assert (V := equator_up d 12). replace (omega_of 12) with 0 in V by (unfold omega_of, rad; cbn; lra).
  rewrite cos_0 in V. assert (C := dec_cos d). destruct (Rle_dec 3 (altitude_of 0 d 12)) as [L|L]; [exact L|]. exfalso.
  assert (P := PI_K). destruct (altitude_sin 0 d 12) as [_ B].
  assert (S : sin (rad (altitude_of 0 d 12)) < sin (PI / 6)).
  { apply sin_increasing_1; unfold rad, K in *; try lra; try nra. }
  rewrite sin_PI6 in S. destruct sqrt3_2. nra.
Qed.
