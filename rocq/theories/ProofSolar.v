(** SolarRadiationSolver: histories and sun position. *)
From Coq Require Import ZArith Bool List Reals Lra Lia Psatz.
From Verif Require Import Num NumFacts ModelBase ModelPolynomial ModelSolar SpecPolynomial SpecVector SpecSolar
  ProofReal ProofVector ProofPolynomial.
Import ListNotations.

Section Any.
Context {N : Num}.

Definition inputs_of (s : SolarSolver N) : SolarInputs N :=
  mkSolarInputs (sr_azimuth_cable s) (sr_day s) (sr_elevation s) (sr_hour s) (sr_latitude s) (sr_quality s) (sr_units s).

(** The answers as a function of the inputs. *)
Definition solved (i : SolarInputs N) : option (N * N * N) :=
  match UpdatePolynomialCoefficients (in_units i) (in_quality i) with
  | None => None
  | Some (atm, el) =>
      match SolveAzimuthSolar (in_latitude i) (Declination (in_day i)) (fofZ (AngleHour (in_hour i))) with
      | None => None
      | Some z => let h := SolveAltitudeSolar (in_latitude i) (Declination (in_day i)) (fofZ (AngleHour (in_hour i))) in
          Some (h, z, SolveRadiation atm el h z (in_azimuth i) (in_elevation i))
      end
  end.

Definition sr_inv (s : SolarSolver N) : Prop :=
  sr_is_updated s = true -> solved (inputs_of s) = Some (sr_altitude_sun s, sr_azimuth_sun s, sr_radiation s).

Lemma update_spec : forall s, sr_inv s -> let '(b, s') := sr_Update s in
  inputs_of s' = inputs_of s /\ sr_inv s' /\ b = (match solved (inputs_of s) with Some _ => true | None => false end) /\
  (b = true -> sr_is_updated s' = true).
Proof.
  intros s I. unfold sr_Update. destruct (sr_is_updated s) eqn:E.
  - rewrite (I E). repeat (split; auto).
  - unfold solved. cbn.
    destruct (UpdatePolynomialCoefficients (sr_units s) (sr_quality s)) as [[atm el]|] eqn:C.
    + destruct (SolveAzimuthSolar (sr_latitude s) (Declination (sr_day s)) _) as [z|] eqn:A.
      * unfold inputs_of, sr_inv; cbn. unfold solved; cbn. rewrite C, A. repeat split; auto.
      * unfold inputs_of, sr_inv; cbn. repeat split; auto; discriminate.
    + unfold sr_inv. repeat split; auto; congruence.
Qed.

Lemma answers : forall s, sr_inv s ->
  fst (sr_AltitudeSun s) = (match solved (inputs_of s) with Some (h, z, q) => h | None => ferr end) /\
  fst (sr_AzimuthSun s) = (match solved (inputs_of s) with Some (h, z, q) => z | None => ferr end) /\
  fst (sr_Radiation s) = (match solved (inputs_of s) with Some (h, z, q) => q | None => ferr end).
Proof.
  intros s I. assert (U := update_spec s I). unfold sr_AltitudeSun, sr_AzimuthSun, sr_Radiation.
  destruct (sr_Update s) as [b s']. destruct U as (Ei & I' & Eb & Ub). cbn [fst].
  destruct b.
  - assert (V := I' (Ub eq_refl)). rewrite Ei in V. rewrite V. repeat split.
  - destruct (solved (inputs_of s)) as [p|]; [discriminate|]. repeat split.
Qed.

Lemma validates : forall s, sr_inv s ->
  fst (sr_Validate s) = sr_inputs_valid s && match solved (inputs_of s) with Some _ => true | None => false end.
Proof.
  intros s I. assert (U := update_spec s I). unfold sr_Validate. destruct (sr_inputs_valid s); [|reflexivity].
  destruct (sr_Update s) as [b s']. destruct U as (_ & _ & Eb & _). exact Eb.
Qed.

Lemma call_inv : forall s k, sr_inv s -> sr_inv (sr_call s k) /\ inputs_of (sr_call s k) = set_input (inputs_of s) k.
Proof.
  intros s k I. assert (U := update_spec s I).
  destruct k; cbn [sr_call]; try (split; [intro; discriminate|reflexivity]).
  all: unfold sr_AltitudeSun, sr_AzimuthSun, sr_Radiation, sr_Validate.
  all: try (destruct (sr_inputs_valid s)).
  all: try (destruct (sr_Update s) as [b s']; destruct U as (Ei & I' & _ & _); cbn [snd]; split; [exact I'|exact Ei]).
  split; [exact I|reflexivity].
Qed.

Lemma run_inv_from : forall ks s, sr_inv s -> sr_inv (sr_run s ks) /\ inputs_of (sr_run s ks) = fold_left set_input ks (inputs_of s).
Proof.
  induction ks as [|k ks IH]; intros s I.
  - split; [exact I|reflexivity].
  - destruct (call_inv s k I) as [I' E]. destruct (IH _ I') as [I'' E']. change (sr_run s (k :: ks)) with (sr_run (sr_call s k) ks). split; [exact I''|]. rewrite E', E. reflexivity.
Qed.

Lemma run_inv : forall ks, sr_inv (sr_run SolarSolver_default ks) /\ inputs_of (sr_run SolarSolver_default ks) = inputs_after ks.
Proof. intros ks. apply run_inv_from. intro; discriminate. Qed.

Lemma inputs_setting : forall i : SolarInputs N, inputs_after (setting i) = i.
Proof. intros [a d e h l q u]. reflexivity. Qed.

Lemma valid_inputs_of : forall s s' : SolarSolver N, inputs_of s = inputs_of s' -> sr_inputs_valid s = sr_inputs_valid s'.
Proof. intros s s' E. unfold inputs_of in E. injection E as E1 E2 E3 E4 E5 E6 E7. unfold sr_inputs_valid. rewrite E1, E2, E3, E4, E5, E6, E7. reflexivity. Qed.

Lemma solar_history : forall ks,
  let s := sr_run (N := N) SolarSolver_default ks in let f := sr_run SolarSolver_default (setting (inputs_after ks)) in
  fst (sr_AltitudeSun s) = fst (sr_AltitudeSun f) /\ fst (sr_AzimuthSun s) = fst (sr_AzimuthSun f) /\
  fst (sr_Radiation s) = fst (sr_Radiation f) /\ fst (sr_Validate s) = fst (sr_Validate f).
Proof.
  intros ks s f. destruct (run_inv ks) as [I E]. destruct (run_inv (setting (inputs_after ks))) as [I' E'].
  rewrite inputs_setting in E'. fold s in I, E. fold f in I', E'. clearbody s f.
  destruct (answers s I) as (A1 & A2 & A3). destruct (answers f I') as (B1 & B2 & B3).
  rewrite A1, A2, A3, B1, B2, B3, (validates s I), (validates f I'), E, E'.
  rewrite (valid_inputs_of s f); [auto|congruence].
Qed.

End Any.

Open Scope R_scope.

Lemma coefficients_known : forall u q, u <> USNull -> q <> AqNull ->
  exists a e, UpdatePolynomialCoefficients (N := RNum) u q = Some (a, e).
Proof. intros u q U Q. destruct u, q; try congruence; cbn [UpdatePolynomialCoefficients]; do 2 eexists; reflexivity. Qed.

(** ** The position in real arithmetic *)

Definition rad (x : R) : R := x * (K / 180).

Lemma about_rad : forall a, about_degrees a (rad a).
Proof.
  intros a. unfold about_degrees, rad. assert (P := PI_K).
  replace (a * (K / 180) - a * PI / 180) with (- (a / 180) * (PI - K)) by field.
  rewrite Rabs_mult, Rabs_Ropp, (Rabs_pos_eq (PI - K)) by lra.
  unfold Rdiv at 1. rewrite Rabs_mult, (Rabs_pos_eq (/ 180)) by lra.
  assert (A := Rabs_pos a). nra.
Qed.

Lemma about_near : forall a phi, Rabs (phi - rad a) <= 8 / 1000000000000000 -> about_degrees a phi.
Proof.
  intros a phi H. assert (A := about_rad a). unfold about_degrees in *.
  replace (phi - a * PI / 180) with ((phi - rad a) + (rad a - a * PI / 180)) by ring.
  eapply Rle_trans; [apply Rabs_triang|].
  assert (P := PI_K).
  replace (rad a - a * PI / 180) with (- (a / 180) * (PI - K)) in * by (unfold rad; field).
  rewrite Rabs_mult, Rabs_Ropp, (Rabs_pos_eq (PI - K)) in * by lra.
  replace (Rabs (a / 180)) with (Rabs a / 180) by (unfold Rdiv; rewrite Rabs_mult, (Rabs_pos_eq (/ 180)) by lra; reflexivity).
  assert (B := Rabs_pos a). nra.
Qed.

Definition dec_of (d : Z) : R := rad (2346 / 100 * sin (rad (360 * IZR (284 + d) / 365))).
Definition omega_of (h : Z) : R := rad (15 * IZR (h - 12)).

Lemma of_angles : forall (l : R) d h, sun_angles l d h (rad l) (dec_of d) (omega_of h).
Proof.
  intros l d h. split; [apply about_rad|]. split; [|apply about_rad].
  exists (rad (360 * IZR (284 + d) / 365)). split; apply about_rad.
Qed.

Lemma lit_2346 : IZR 2346 * powerRZ 10 (-2) = 2346 / 100. Proof. simpl. lra. Qed.

Lemma Declination_R : forall d, deg2rad (N := RNum) (Declination d) = dec_of d.
Proof.
  intros d. unfold Declination, dec_of, rad. rewrite !deg2rad_R. rn.
  rewrite flit_R, lit_2346.
  replace (IZR (284 + d) / 365 * 360 * (K / 180)) with (360 * IZR (284 + d) / 365 * (K / 180)) by (field).
  reflexivity.
Qed.

Lemma AngleHour_R : forall h, (@fofZ RNum (AngleHour h) : R) = 15 * IZR (h - 12).
Proof. intros h. unfold AngleHour. rn. rewrite mult_IZR. ring. Qed.

Lemma Hour_R : forall h, deg2rad (N := RNum) (fofZ (AngleHour h)) = omega_of h.
Proof. intros h. rewrite deg2rad_R, AngleHour_R. reflexivity. Qed.

Lemma sun_unit : forall p d w,
  sun_east p d w * sun_east p d w + sun_north p d w * sun_north p d w + sun_up p d w * sun_up p d w = 1.
Proof.
  intros p d w. unfold sun_up, sun_east, sun_north.
  assert (P := sin2_cos2 p). assert (D := sin2_cos2 d). assert (W := sin2_cos2 w). unfold Rsqr in *.
  set (sp := sin p) in *. set (cp := cos p) in *. set (sd := sin d) in *. set (cd := cos d) in *.
  set (sw := sin w) in *. set (cw := cos w) in *.
  replace 1 with ((sd * sd + cd * cd * (cw * cw)) * (sp * sp + cp * cp) + cd * cd * (sw * sw)); [ring|].
  rewrite P. replace (sw * sw) with (1 - cw * cw) by lra. lra.
Qed.

Lemma up_bound : forall p d w, -1 <= sun_up p d w <= 1.
Proof.
  intros p d w. assert (E := sun_unit p d w). set (a := sun_east p d w) in *. set (b := sun_north p d w) in *.
  set (c := sun_up p d w) in *. assert (0 <= a * a) by nra. assert (0 <= b * b) by nra. split; nra.
Qed.

Definition altitude_of (l : R) d h : R := SolveAltitudeSolar (N := RNum) l (Declination d) (fofZ (AngleHour h)).

Lemma altitude_R : forall (l : R) d h, rad (altitude_of l d h) = asin (sun_up (rad l) (dec_of d) (omega_of h)).
Proof.
  intros l d h. unfold altitude_of, SolveAltitudeSolar. rewrite Declination_R, Hour_R.
  change (rad ?x) with (x * (K / 180)) at 1. rewrite <- deg2rad_R, deg_rad. rn. rewrite deg2rad_R. unfold sun_up.
  f_equal. fold (rad l). ring.
Qed.

Lemma altitude_sin : forall (l : R) d h, sin (rad (altitude_of l d h)) = sun_up (rad l) (dec_of d) (omega_of h) /\
  - (PI / 2) <= rad (altitude_of l d h) <= PI / 2.
Proof.
  intros l d h. rewrite altitude_R. split; [apply sin_asin; apply up_bound|apply asin_bound].
Qed.

(** ** The azimuth *)

Definition chi_of (l : R) d h : R :=
  sin (omega_of h) / (sin (rad l) * cos (omega_of h) - cos (rad l) * tan (dec_of d)).
Definition azimuth_of (l : R) d h : R :=
  (if Rlt_dec (15 * IZR (h - 12)) 0 then (if Rlt_dec (chi_of l d h) 0 then 180 else 0)
   else (if Rlt_dec (chi_of l d h) 0 then 360 else 180)) + atan (chi_of l d h) * (180 / K).

Lemma azimuth_R : forall (l : R) d h,
  SolveAzimuthSolar (N := RNum) l (Declination d) (fofZ (AngleHour h)) = Some (azimuth_of l d h).
Proof.
  intros l d h. unfold SolveAzimuthSolar. rewrite Declination_R, Hour_R, AngleHour_R.
  rewrite deg2rad_R, rad2deg_R. rn. fold (rad l). fold (chi_of l d h). unfold azimuth_of, Rltb, Rleb.
  destruct (Rlt_dec (15 * IZR (h - 12)) 0); [destruct (Rlt_dec (chi_of l d h) 0); reflexivity|].
  destruct (Rle_dec 0 (15 * IZR (h - 12))); [|lra]. destruct (Rlt_dec (chi_of l d h) 0); reflexivity.
Qed.

Lemma solved_R : forall i : SolarInputs RNum, in_units i <> USNull -> in_quality i <> AqNull ->
  exists atm el, UpdatePolynomialCoefficients (N := RNum) (in_units i) (in_quality i) = Some (atm, el) /\
  solved i = Some (altitude_of (in_latitude i) (in_day i) (in_hour i), azimuth_of (in_latitude i) (in_day i) (in_hour i),
    SolveRadiation (N := RNum) atm el (altitude_of (in_latitude i) (in_day i) (in_hour i))
      (azimuth_of (in_latitude i) (in_day i) (in_hour i)) (in_azimuth i) (in_elevation i)).
Proof.
  intros i U Q. destruct (coefficients_known _ _ U Q) as (atm & el & E). exists atm, el. split; [exact E|].
  unfold solved. rewrite E, azimuth_R. reflexivity.
Qed.

Lemma dec_small : forall d, - (PI / 2) < dec_of d < PI / 2.
Proof.
  intros d. unfold dec_of. set (x := rad (360 * IZR (284 + d) / 365)). assert (B := SIN_bound x).
  assert (P := PI_K). unfold rad, K in *. split; nra.
Qed.

Lemma chi_east_north : forall (l : R) d h, sun_north (rad l) (dec_of d) (omega_of h) <> 0 ->
  chi_of l d h = sun_east (rad l) (dec_of d) (omega_of h) / sun_north (rad l) (dec_of d) (omega_of h).
Proof.
  intros l d h Hn. unfold chi_of, sun_east. assert (C : 0 < cos (dec_of d)) by (apply cos_gt_0; apply dec_small).
  unfold tan. unfold sun_north in *.
  set (cd := cos (dec_of d)) in *. set (sd := sin (dec_of d)) in *. set (sp := sin (rad l)) in *. set (cp := cos (rad l)) in *.
  set (cw := cos (omega_of h)) in *. set (sw := sin (omega_of h)) in *.
  field_simplify_eq; [ring| repeat split; try lra].
Qed.

Lemma omega_sign : forall h, (0 <= h <= 23)%Z ->
  ((h < 12)%Z -> 15 * IZR (h - 12) < 0 /\ sin (omega_of h) < 0) /\
  (h = 12%Z -> 15 * IZR (h - 12) = 0 /\ sin (omega_of h) = 0) /\
  ((12 < h)%Z -> 0 < 15 * IZR (h - 12) /\ 0 < sin (omega_of h)).
Proof.
  intros h H. unfold omega_of, rad. assert (P := PI_K). assert (KP := K_pos).
  assert (B1 : IZR h <= 23) by (apply IZR_le; lia). assert (B0 : 0 <= IZR h) by (apply IZR_le; lia).
  rewrite minus_IZR. repeat split.
  - assert (IZR h <= 11) by (apply IZR_le; lia). lra.
  - assert (IZR h <= 11) by (apply IZR_le; lia). apply sin_lt_0_var; unfold K in *; nra.
  - subst. lra.
  - subst. replace (15 * (12 - 12) * (K / 180)) with 0 by lra. apply sin_0.
  - assert (13 <= IZR h) by (apply IZR_le; lia). lra.
  - assert (13 <= IZR h) by (apply IZR_le; lia). apply sin_gt_0; unfold K in *; nra.
Qed.

Lemma atan_dir : forall e n, n <> 0 ->
  sqrt (e * e + n * n) * cos (atan (e / n)) = Rabs n /\ sqrt (e * e + n * n) * sin (atan (e / n)) = Rabs n * (e / n).
Proof.
  intros e n Hn.
  assert (E : sqrt (e * e + n * n) = Rabs n * sqrt (1 + Rsqr (e / n))).
  { rewrite <- sqrt_Rsqr_abs. rewrite <- sqrt_mult_alt by apply Rle_0_sqr. f_equal. unfold Rsqr. field. exact Hn. }
  assert (Sp : 0 < sqrt (1 + Rsqr (e / n))) by (apply sqrt_lt_R0; assert (0 <= Rsqr (e / n)) by apply Rle_0_sqr; lra).
  rewrite cos_atan, sin_atan, E. split; field; repeat split; try lra.
Qed.

Lemma azimuth_dir : forall (l : R) d h, (0 <= h <= 23)%Z ->
  let e := sun_east (rad l) (dec_of d) (omega_of h) in let n := sun_north (rad l) (dec_of d) (omega_of h) in
  n <> 0 -> h <> 12%Z \/ n < 0 ->
  exists azi, about_degrees (azimuth_of l d h) azi /\
    sqrt (e * e + n * n) * sin azi = e /\ sqrt (e * e + n * n) * cos azi = n.
Proof.
  intros l d h H e n Hn Hh. assert (C := chi_east_north l d h Hn). fold e n in C.
  destruct (atan_dir e n Hn) as [DC DS]. assert (PK := PI_K). assert (KP := K_pos).
  assert (CD : 0 < cos (dec_of d)) by (apply cos_gt_0; apply dec_small).
  assert (Es : (sin (omega_of h) < 0 -> 0 < e) /\ (sin (omega_of h) = 0 -> e = 0) /\ (0 < sin (omega_of h) -> e < 0)).
  { unfold e, sun_east. repeat split; intros; nra. }
  destruct (omega_sign h H) as (S1 & S2 & S3).
  assert (Ediv : e / n < 0 <-> (e < 0 < n \/ n < 0 < e)).
  { assert (Ee : e = e / n * n) by (field; exact Hn). split; intros Q.
    - destruct (Rtotal_order n 0) as [L|[L|L]]; [right|lra|left]; split; try lra; rewrite Ee; nra.
    - destruct Q as [Q|Q]; [|]; destruct (Rlt_dec (e / n) 0) as [|G]; try assumption; exfalso; nra. }
  assert (near : forall c c', Rabs (c' - c * (K / 180)) <= 8 / 1000000000000000 ->
    about_degrees (c + atan (chi_of l d h) * (180 / K)) (c' + atan (e / n))).
  { intros c c' Hc. apply about_near. rewrite C. unfold rad.
    replace (c' + atan (e / n) - (c + atan (e / n) * (180 / K)) * (K / 180)) with (c' - c * (K / 180)) by (field; lra).
    exact Hc. }
  assert (pos : 0 < n -> forall z, (z = 0 \/ z = 2 * PI) ->
    sqrt (e * e + n * n) * sin (z + atan (e / n)) = e /\ sqrt (e * e + n * n) * cos (z + atan (e / n)) = n).
  { intros Pn z Hz. assert (sin (z + atan (e / n)) = sin (atan (e / n)) /\ cos (z + atan (e / n)) = cos (atan (e / n))) as [-> ->].
    { destruct Hz as [-> | ->]; [rewrite Rplus_0_l; auto|].
      replace (2 * PI + atan (e / n)) with (atan (e / n) + 2 * PI) by ring.
      rewrite sin_plus, cos_plus, sin_2PI, cos_2PI. split; ring. }
    rewrite DS, DC, Rabs_pos_eq by lra. split; [field; lra|reflexivity]. }
  assert (neg : n < 0 ->
    sqrt (e * e + n * n) * sin (PI + atan (e / n)) = e /\ sqrt (e * e + n * n) * cos (PI + atan (e / n)) = n).
  { intros Pn. replace (PI + atan (e / n)) with (atan (e / n) + PI) by ring. rewrite neg_sin, neg_cos.
    rewrite <- !Ropp_mult_distr_r, DS, DC, Rabs_left by lra. split; [field; lra|ring]. }
  unfold azimuth_of. rewrite <- C in Ediv.
  assert (T : (h < 12 \/ h = 12 \/ 12 < h)%Z) by lia. destruct T as [T|[T|T]].
  - destruct (S1 T) as [A B]. assert (Pe : 0 < e) by tauto. destruct (Rlt_dec (15 * IZR (h - 12)) 0) as [_|]; [|lra].
    destruct (Rlt_dec (chi_of l d h) 0) as [L|L].
    + assert (Nn : n < 0) by (destruct (proj1 Ediv L); lra). exists (PI + atan (e / n)). split; [|apply neg; exact Nn].
      apply near. rewrite Rabs_pos_eq; lra.
    + assert (Pn : 0 < n). { destruct (Rlt_dec 0 n); [assumption|]. exfalso. apply L. apply Ediv. right. lra. }
      exists (0 + atan (e / n)). split; [|apply pos; auto]. apply near. rewrite Rabs_pos_eq; lra.
  - destruct (S2 T) as [A B]. assert (Ze : e = 0) by tauto. assert (Nn : n < 0) by (destruct Hh; [contradiction|assumption]).
    destruct (Rlt_dec (15 * IZR (h - 12)) 0) as [|_]; [lra|].
    destruct (Rlt_dec (chi_of l d h) 0) as [L|L]; [destruct (proj1 Ediv L); lra|].
    exists (PI + atan (e / n)). split; [|apply neg; exact Nn]. apply near. rewrite Rabs_pos_eq; lra.
  - destruct (S3 T) as [A B]. assert (Ne : e < 0) by tauto. destruct (Rlt_dec (15 * IZR (h - 12)) 0) as [|_]; [lra|].
    destruct (Rlt_dec (chi_of l d h) 0) as [L|L].
    + assert (Pn : 0 < n) by (destruct (proj1 Ediv L); lra). exists (2 * PI + atan (e / n)). split; [|apply pos; auto].
      apply near. rewrite Rabs_pos_eq; lra.
    + assert (Nn : n < 0). { destruct (Rlt_dec n 0); [assumption|]. exfalso. apply L. apply Ediv. left. lra. }
      exists (PI + atan (e / n)). split; [|apply neg; exact Nn]. apply near. rewrite Rabs_pos_eq; lra.
Qed.

Lemma azimuth_range : forall (l : R) d h, 0 <= azimuth_of l d h < 360.
Proof.
  intros l d h. unfold azimuth_of. assert (B := atan_bound (chi_of l d h)). assert (PK := PI_K).
  assert (G : 0 <= chi_of l d h -> 0 <= atan (chi_of l d h)).
  { intros [G|G]; [left; rewrite <- atan_0; apply atan_increasing; exact G|]. rewrite <- G, atan_0. lra. }
  assert (L : chi_of l d h < 0 -> atan (chi_of l d h) < 0).
  { intros L. rewrite <- atan_0. apply atan_increasing; exact L. }
  assert (D : -91 < atan (chi_of l d h) * (180 / K) < 91).
  { unfold K in *. split; nra. }
  assert (S180 : 0 < 180 / K) by (unfold K; lra).
  destruct (Rlt_dec (15 * IZR (h - 12)) 0); destruct (Rlt_dec (chi_of l d h) 0); try lra.
  - split; [|lra]. assert (0 <= atan (chi_of l d h)) by (apply G; lra). nra.
  - assert (atan (chi_of l d h) < 0) by (apply L; assumption). split; [lra|]. nra.
Qed.
