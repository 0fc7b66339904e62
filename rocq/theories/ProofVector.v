(** Vectors in real arithmetic (vector.cc). *)
From Coq Require Import ZArith Bool List Reals Lra Lia Psatz.
From Verif Require Import Num NumFacts ModelBase ProofReal SpecVector.
Import ListNotations.
Open Scope R_scope.

Lemma rad2deg_R : forall x, @rad2deg RNum x = x * (180 / K).
Proof.
  intros x. unfold rad2deg, ConvertAngle, Convert, kAngleRadiansToDegrees. rn.
  rewrite Rpow_c_1, kPi_val. reflexivity.
Qed.
Lemma deg2rad_R : forall x, @deg2rad RNum x = x * (K / 180).
Proof.
  intros x. unfold deg2rad, ConvertAngle, Convert, kAngleDegreesToRadians. rn.
  rewrite Rpow_c_1, kPi_val. reflexivity.
Qed.
Lemma K_pos : 0 < K. Proof. unfold K; lra. Qed.
Lemma deg_rad : forall x, @deg2rad RNum (@rad2deg RNum x) = x.
Proof. intros x. rewrite deg2rad_R, rad2deg_R. assert (H := K_pos). rfield. lra. Qed.

Definition mag (v : Vector2d RNum) : R := sqrt (v2x v * v2x v + v2y v * v2y v).
Lemma mag_R : forall v, @Vector2d_Magnitude RNum v = mag v.
Proof. intros v. unfold Vector2d_Magnitude, mag. rn. rewrite !Rpow_2. reflexivity. Qed.
Lemma mag_sq : forall v, mag v * mag v = v2x v * v2x v + v2y v * v2y v.
Proof. intros v. unfold mag. apply sqrt_sqrt. nra. Qed.
Lemma mag_nonneg : forall v, 0 <= mag v. Proof. intros; apply sqrt_pos. Qed.
Definition nz (v : Vector2d RNum) : Prop := (v2x v : R) <> 0 \/ (v2y v : R) <> 0.
Lemma mag_pos : forall v, nz v <-> 0 < mag v.
Proof.
  intros v. unfold nz. split; intros H.
  - unfold mag. apply sqrt_lt_R0. destruct H; nra.
  - destruct (Req_dec (v2x v) 0) as [E|E]; [|left; assumption].
    right. intro E2. unfold mag in H. rewrite E, E2 in H.
    replace (0 * 0 + 0 * 0) with 0 in H by rring. rewrite sqrt_0 in H. lra.
Qed.

(** The angle of the code in radians (in units of its own pi). *)
Definition arad (v : Vector2d RNum) : R := @deg2rad RNum (@Vector2d_Angle RNum v false).

Lemma arad_cases : forall x y, ((x : R) <> 0 \/ (y : R) <> 0) ->
  arad (mkVector2d (N := RNum) x y) =
    if Rlt_dec 0 y then
      if Rlt_dec 0 x then atan (y / x) else if Rlt_dec x 0 then K - Rabs (atan (y / x)) else K / 2
    else if Rlt_dec y 0 then
      if Rlt_dec 0 x then 2 * K - Rabs (atan (y / x))
      else if Rlt_dec x 0 then K + Rabs (atan (y / x)) else 3 * (K / 2)
    else if Rlt_dec 0 x then 0 else K.
Proof.
  intros x y H. unfold arad, Vector2d_Angle. cbn [v2x v2y].
  rewrite !andb_false_r.
  assert (C := K_pos).
  assert (D180 : forall a, @deg2rad RNum (180 - @rad2deg RNum a) = K - a).
  { intro a. rewrite deg2rad_R, rad2deg_R. rfield. lra. }
  assert (D180' : forall a, @deg2rad RNum (180 + @rad2deg RNum a) = K + a).
  { intro a. rewrite deg2rad_R, rad2deg_R. rfield. lra. }
  assert (D360 : forall a, @deg2rad RNum (360 - @rad2deg RNum a) = 2 * K - a).
  { intro a. rewrite deg2rad_R, rad2deg_R. rfield. lra. }
  rn. rewrite kPi_val. fold K.
  unfold Reqb, Rltb, Rleb.
  repeat match goal with
  | |- context [Req_EM_T ?a ?b] => destruct (Req_EM_T a b)
  | |- context [Rlt_dec ?a ?b] => destruct (Rlt_dec a b)
  | |- context [Rle_dec ?a ?b] => destruct (Rle_dec a b)
  end; cbn [orb]; try lra; rewrite ?deg_rad, ?D180, ?D180', ?D360; try lra;
  try (rewrite deg2rad_R; lra).
Qed.

Lemma sqrt_ratio : forall x y, 0 < x -> sqrt (1 + Rsqr (y / x)) = sqrt (x * x + y * y) / x.
Proof.
  intros x y Hx. replace (1 + Rsqr (y / x)) with ((x * x + y * y) / (x * x)).
  2:{ unfold Rsqr. rfield. lra. }
  rewrite sqrt_div by nra. rewrite sqrt_square by lra. reflexivity.
Qed.

Lemma atan_xy : forall x y, 0 < x ->
  x = sqrt (x * x + y * y) * cos (atan (y / x)) /\ y = sqrt (x * x + y * y) * sin (atan (y / x)).
Proof.
  intros x y Hx. rewrite cos_atan, sin_atan, sqrt_ratio by assumption.
  assert (0 < sqrt (x * x + y * y)) by (apply sqrt_lt_R0; nra).
  split; rfield; split; lra.
Qed.

(** The true direction: the code's angle is below it by at most 2 (pi - K). *)
Lemma arad_true : forall v, nz v ->
  exists t, v2x v = mag v * cos t /\ v2y v = mag v * sin t /\ 0 <= t < 2 * PI /\
    arad v <= t <= arad v + 2 * (PI - K).
Proof.
  intros [x y] H. unfold nz in *. cbn [v2x v2y] in *. rewrite arad_cases by assumption. unfold mag. cbn [v2x v2y].
  assert (PK := PI_K). assert (C := K_pos). assert (PP := PI_RGT_0).
  destruct (Rlt_dec 0 y) as [Hy|Hy].
  - destruct (Rlt_dec 0 x) as [Hx|Hx].
    + exists (atan (y / x)). destruct (atan_xy x y Hx) as [E1 E2].
      assert (B := atan_bound (y / x)).
      assert (0 < atan (y / x)).
      { rewrite <- atan_0. apply atan_increasing. apply Rdiv_lt_0_compat; lra. }
      repeat split; try assumption; lra.
    + destruct (Rlt_dec x 0) as [Hx'|Hx'].
      * exists (PI - atan (y / - x)). destruct (atan_xy (- x) y ltac:(lra)) as [E1 E2].
        assert (B := atan_bound (y / - x)).
        assert (P : 0 < atan (y / - x)).
        { rewrite <- atan_0. apply atan_increasing. apply Rdiv_lt_0_compat; lra. }
        replace (- x * - x) with (x * x) in * by rring.
        replace (y / x) with (- (y / - x)) by (rfield; lra).
        rewrite atan_opp, Rabs_Ropp, (Rabs_pos_eq (atan (y / - x))) by lra.
        rewrite Rtrigo_facts.cos_pi_minus, Rtrigo_facts.sin_pi_minus.
        repeat split; lra.
      * assert (x = 0) by lra. subst x. exists (PI / 2).
        rewrite cos_PI2, sin_PI2. replace (0 * 0 + y * y) with (y * y) by rring. rewrite sqrt_square by lra.
        repeat split; lra.
  - destruct (Rlt_dec y 0) as [Hy'|Hy'].
    + destruct (Rlt_dec 0 x) as [Hx|Hx].
      * exists (2 * PI - atan (- y / x)). destruct (atan_xy x (- y) Hx) as [E1 E2].
        assert (B := atan_bound (- y / x)).
        assert (P : 0 < atan (- y / x)).
        { rewrite <- atan_0. apply atan_increasing. apply Rdiv_lt_0_compat; lra. }
        replace (- y * - y) with (y * y) in * by rring.
        replace (y / x) with (- (- y / x)) by (rfield; lra).
        rewrite atan_opp, Rabs_Ropp, (Rabs_pos_eq (atan (- y / x))) by lra.
        replace (2 * PI - atan (- y / x)) with (- atan (- y / x) + 2 * INR 1 * PI) by (simpl; rring).
        rewrite cos_period, sin_period, cos_neg, sin_neg. simpl INR.
        repeat split; lra.
      * destruct (Rlt_dec x 0) as [Hx'|Hx'].
        -- exists (PI + atan (y / x)). destruct (atan_xy (- x) (- y) ltac:(lra)) as [E1 E2].
           replace (- y / - x) with (y / x) in * by (rfield; lra).
           assert (B := atan_bound (y / x)).
           assert (P : 0 < atan (y / x)).
           { rewrite <- atan_0. apply atan_increasing.
             replace (y / x) with (- y / - x) by (rfield; lra). apply Rdiv_lt_0_compat; lra. }
           replace (- x * - x) with (x * x) in * by rring. replace (- y * - y) with (y * y) in * by rring.
           rewrite (Rabs_pos_eq (atan (y / x))) by lra.
           rewrite Rtrigo_facts.cos_pi_plus, Rtrigo_facts.sin_pi_plus. repeat split; lra.
        -- assert (x = 0) by lra. subst x. exists (3 * (PI / 2)).
           rewrite cos_3PI2, sin_3PI2. replace (0 * 0 + y * y) with (- y * - y) by rring.
           rewrite sqrt_square by lra. repeat split; lra.
    + assert (y = 0) by lra. subst y. replace (x * x + 0 * 0) with (x * x) by rring.
      destruct (Rlt_dec 0 x) as [Hx|Hx].
      * exists 0. rewrite cos_0, sin_0, sqrt_square by lra. repeat split; lra.
      * exists PI. replace (x * x) with (- x * - x) by rring. rewrite cos_PI, sin_PI, sqrt_square by lra.
        repeat split; lra.
Qed.

(** Scaling by a positive number keeps the angle. *)
Lemma arad_scale : forall v k, 0 < k -> nz v ->
  arad (Vector2d_Scale v k) = arad v.
Proof.
  intros [x y] k Hk H. unfold nz in *. unfold Vector2d_Scale. cbn [v2x v2y] in *. rn.
  assert (S : forall a, 0 < a * k <-> 0 < a).
  { intro a. split; intro Q; [|apply Rmult_lt_0_compat; lra].
    destruct (Rlt_dec 0 a); [assumption|]. nra. }
  assert (S' : forall a, a * k < 0 <-> a < 0).
  { intro a. split; intro Q; nra. }
  rewrite !arad_cases; [|assumption|destruct H; [left|right]; nra].
  assert (S1 : forall a (u w : R), (if Rlt_dec 0 (a * k) then u else w) = if Rlt_dec 0 a then u else w).
  { intros a u w. specialize (S a). destruct (Rlt_dec 0 (a * k)), (Rlt_dec 0 a); tauto. }
  assert (S2 : forall a (u w : R), (if Rlt_dec (a * k) 0 then u else w) = if Rlt_dec a 0 then u else w).
  { intros a u w. specialize (S' a). destruct (Rlt_dec (a * k) 0), (Rlt_dec a 0); tauto. }
  rewrite !S1, !S2.
  destruct (Req_dec x 0) as [Ex|Ex].
  - subst x. destruct (Rlt_dec 0 0); [lra|]. reflexivity.
  - replace (y * k / (x * k)) with (y / x) by (rfield; lra). reflexivity.
Qed.

(** Rotate, in terms of [arad]. *)
Lemma Rotate_R : forall v a, @Vector2d_Rotate RNum v a =
  if Rlt_dec (Rabs a) (5 / 100000) then v
  else mkVector2d (N := RNum) (mag v * cos (arad v + a * (K / 180))) (mag v * sin (arad v + a * (K / 180))).
Proof.
  intros v a. unfold Vector2d_Rotate. rn. rewrite mag_R, flit_R.
  replace (IZR 5 * powerRZ 10 (-5)) with (5 / 100000) by (simpl; lra).
  unfold Rltb. destruct (Rlt_dec (Rabs a) (5 / 100000)); [reflexivity|].
  assert (E : @deg2rad RNum (@Vector2d_Angle RNum v false + a) = arad v + a * (K / 180)).
  { unfold arad. rewrite !deg2rad_R. rring. }
  rewrite E. reflexivity.
Qed.

Lemma Rotate_mag : forall v a, mag (@Vector2d_Rotate RNum v a) = mag v.
Proof.
  intros v a. rewrite Rotate_R. destruct Rlt_dec; [reflexivity|].
  unfold mag at 1. cbn [v2x v2y]. set (t := arad v + a * (K / 180)).
  replace (mag v * cos t * (mag v * cos t) + mag v * sin t * (mag v * sin t))
    with (mag v * mag v * (Rsqr (sin t) + Rsqr (cos t))) by (unfold Rsqr; rring).
  rewrite sin2_cos2, Rmult_1_r. apply sqrt_square. apply mag_nonneg.
Qed.

(** The rotated vector depends on the direction only. *)
Lemma Rotate_scale : forall v k a, 0 < k -> nz v ->
  @Vector2d_Rotate RNum (Vector2d_Scale v k) a = Vector2d_Scale (@Vector2d_Rotate RNum v a) k.
Proof.
  intros v k a Hk H. rewrite !Rotate_R. destruct Rlt_dec; [reflexivity|].
  rewrite arad_scale by assumption.
  assert (M : mag (Vector2d_Scale v k) = mag v * k).
  { unfold mag, Vector2d_Scale. cbn [v2x v2y]. rn.
    replace (v2x v * k * (v2x v * k) + v2y v * k * (v2y v * k))
      with ((v2x v * v2x v + v2y v * v2y v) * (k * k)) by rring.
    rewrite sqrt_mult by nra. rewrite sqrt_square by lra. reflexivity. }
  rewrite M. unfold Vector2d_Scale. cbn [v2x v2y]. rn. f_equal; rring.
Qed.

Lemma scale_mag : forall v k, mag (Vector2d_Scale v k) = mag v * Rabs k.
Proof.
  intros v k. unfold mag, Vector2d_Scale. cbn [v2x v2y]. rn.
  replace (v2x v * k * (v2x v * k) + v2y v * k * (v2y v * k))
    with ((v2x v * v2x v + v2y v * v2y v) * (k * k)) by rring.
  rewrite sqrt_mult by nra. f_equal. apply sqrt_Rsqr_abs.
Qed.

(** Direction of the rotated vector: rotation by the angle, with the error of the
    truncated pi. *)
Lemma Rotate_direction : forall v a, nz v -> 5 / 100000 <= Rabs a ->
  exists t e, v2x v = mag v * cos t /\ v2y v = mag v * sin t /\
    v2x (@Vector2d_Rotate RNum v a) = mag v * cos (t + a * (PI / 180) + e) /\
    v2y (@Vector2d_Rotate RNum v a) = mag v * sin (t + a * (PI / 180) + e) /\
    Rabs e <= (2 + Rabs a / 180) * (PI - K).
Proof.
  intros v a H Ha. destruct (arad_true v H) as (t & E1 & E2 & _ & B1 & B2).
  exists t, (arad v - t - a / 180 * (PI - K)).
  assert (PK := PI_K).
  split; [exact E1|]. split; [exact E2|].
  rewrite Rotate_R. destruct Rlt_dec; [lra|]. cbn [v2x v2y].
  split; [|split].
  - f_equal. f_equal. rfield.
  - f_equal. f_equal. rfield.
  - replace (arad v - t - a / 180 * (PI - K)) with (- ((t - arad v) + a / 180 * (PI - K))) by rring.
    rewrite Rabs_Ropp. eapply Rle_trans; [apply Rabs_triang|].
    rewrite Rabs_mult, (Rabs_pos_eq (PI - K)), (Rabs_pos_eq (t - arad v)) by lra.
    unfold Rdiv at 1. rewrite Rabs_mult, (Rabs_pos_eq (/ 180)) by lra.
    fold (Rabs a / 180). lra.
Qed.

(** Angle(): the direction in degrees. *)
Lemma Angle_direction : forall v, nz v ->
  exists t, v2x v = mag v * cos t /\ v2y v = mag v * sin t /\ 0 <= t < 2 * PI /\
    Rabs (@Vector2d_Angle RNum v false * (PI / 180) - t) <= 4 * (PI - K).
Proof.
  intros v H. destruct (arad_true v H) as (t & E1 & E2 & B & B1 & B2).
  exists t. repeat split; try tauto; try lra.
  assert (PK := PI_K). assert (C := K_pos).
  assert (E : @Vector2d_Angle RNum v false * (PI / 180) = arad v + arad v * ((PI - K) / K)).
  { unfold arad. rewrite deg2rad_R. rfield. lra. }
  rewrite E.
  assert (0 <= arad v * ((PI - K) / K) <= 4 * (PI - K)).
  { assert (N0 : 0 <= arad v).
    { destruct v as [x y]. unfold nz in H; cbn [v2x v2y] in H. rewrite arad_cases by assumption.
      assert (Q : forall z, Rabs (atan z) < K).
      { intro z. assert (Z := atan_bound z). apply Rabs_def1; unfold K in *; lra. }
      assert (Q1 := Q (y / x)).
      destruct (Rlt_dec 0 y), (Rlt_dec 0 x), (Rlt_dec x 0), (Rlt_dec y 0); try lra;
        try (assert (0 < atan (y / x)) by (rewrite <- atan_0; apply atan_increasing; apply Rdiv_lt_0_compat; lra); lra);
        assert (W := Rabs_pos (atan (y / x))); lra. }
    assert (U : arad v <= 2 * PI) by lra.
    assert (PI < 2 * K) by (unfold K in *; lra).
    unfold Rdiv. split.
    - apply Rmult_le_pos; [lra|]. apply Rmult_le_pos; [lra|]. left. apply Rinv_0_lt_compat. lra.
    - replace (arad v * ((PI - K) * / K)) with ((arad v / K) * (PI - K)) by (rfield; lra).
      apply Rmult_le_compat_r; [lra|]. apply Rmult_le_reg_r with K; [lra|].
      unfold Rdiv. rewrite Rmult_assoc, Rinv_l by lra. lra. }
  apply Rabs_le. lra.
Qed.

Lemma Angle_negative : forall v,
  @Vector2d_Angle RNum v true = @Vector2d_Angle RNum v false \/
  (@Vector2d_Angle RNum v true = @Vector2d_Angle RNum v false - 360 /\ 180 < @Vector2d_Angle RNum v false).
Proof.
  intros v. unfold Vector2d_Angle. rn.
  rewrite !andb_true_r, ?andb_false_r.
  repeat match goal with |- context [if ?b then _ else _] => destruct b eqn:? end; rbool; auto.
Qed.

Lemma Angle_range : forall v, nz v -> 0 <= @Vector2d_Angle RNum v false < 360.
Proof.
  intros v H.
  assert (E : @Vector2d_Angle RNum v false = arad v * (180 / K)).
    { unfold arad. rewrite deg2rad_R. assert (C := K_pos).
      assert (G : forall q, q = q * (K / 180) * (180 / K)) by (intro q; field; lra). apply G. }
    assert (C := K_pos). assert (PK := PI_K).
    assert (B : 0 <= arad v < 2 * K).
    { destruct v as [x y]. unfold nz in H; cbn [v2x v2y] in H. rewrite arad_cases by assumption.
      assert (Q : forall z, Rabs (atan z) < K).
      { intro z. assert (Z := atan_bound z). apply Rabs_def1; unfold K in *; lra. }
      assert (Q1 := Q (y / x)). assert (W := Rabs_pos (atan (y / x))).
      assert (NZ : x <> 0 -> y <> 0 -> 0 < Rabs (atan (y / x))).
      { intros Hx Hy. apply Rabs_pos_lt. intro Z. rewrite <- atan_0 in Z. apply atan_inj in Z || idtac.
        assert (y / x = 0).
        { destruct (Rtotal_order (y / x) 0) as [L|[L|L]]; [|assumption|];
            apply atan_increasing in L; lra. }
        apply Hy. replace y with (y / x * x) by (rfield; assumption). rewrite H0. rring. }
      destruct (Rlt_dec 0 y), (Rlt_dec 0 x), (Rlt_dec x 0), (Rlt_dec y 0); try lra;
        try (specialize (NZ ltac:(lra) ltac:(lra)); lra);
        try (assert (0 < atan (y / x)) by (rewrite <- atan_0; apply atan_increasing; apply Rdiv_lt_0_compat; lra);
             rewrite Rabs_pos_eq in Q1 by lra; lra). }
    rewrite E. split.
    - apply Rmult_le_pos; [lra|]. left. apply Rdiv_lt_0_compat; lra.
    - replace 360 with (2 * K * (180 / K)) by (rfield; lra). apply Rmult_lt_compat_r; [|lra].
      apply Rdiv_lt_0_compat; lra.
Qed.

Lemma Angle_negative_range : forall v, nz v ->
  -180 < @Vector2d_Angle RNum v true <= 180.
Proof.
  intros v H.
  assert (Rg := Angle_range v H).
  assert (D : @Vector2d_Angle RNum v true =
     if Rlt_dec 180 (@Vector2d_Angle RNum v false) then @Vector2d_Angle RNum v false - 360 else @Vector2d_Angle RNum v false).
  { assert (NE : @Vector2d_Angle RNum v false <> -999999) by lra. revert NE. clear.
    unfold Vector2d_Angle. rn. rewrite !andb_true_r, ?andb_false_r.
    destruct (Reqb (v2x v) 0), (Reqb (v2y v) 0), (Rltb 0 (v2y v)), (Rltb (v2y v) 0),
      (Rltb 0 (v2x v)), (Rltb (v2x v) 0), (Rleb 0 (v2y v)), (Rleb 0 (v2x v)), (Rleb (v2x v) 0);
      cbn [orb andb]; intros NE; unfold Rltb;
      try (destruct Rlt_dec; reflexivity); exfalso; apply NE; unfold ferr; apply Rlit0. }
  rewrite D. destruct Rlt_dec; lra.
Qed.

Lemma about_le : forall a e, Rabs e <= (2 + Rabs a / 180) * (PI - K) ->
  Rabs e <= (2 + Rabs a / 180) * (4 / 1000000000000000).
Proof.
  intros a e H. assert (PK := PI_K). assert (A := Rabs_pos a).
  eapply Rle_trans; [exact H|]. apply Rmult_le_compat_l; [|lra].
  apply Rplus_le_le_0_compat; [lra|]. apply Rmult_le_pos; lra.
Qed.

Lemma about_refl : forall a, about_degrees a (a * PI / 180).
Proof.
  intros a. unfold about_degrees. rewrite Rminus_diag_eq by reflexivity. rewrite Rabs_R0.
  assert (A := Rabs_pos a). apply Rmult_le_pos; [|lra].
  apply Rplus_le_le_0_compat; [lra|]. apply Rmult_le_pos; lra.
Qed.

Lemma turned_0 : forall x y, turned x y 0 x y.
Proof. intros x y. unfold turned. rewrite cos_0, sin_0. split; ring. Qed.

Lemma turned_comp : forall x y p x1 y1 q x2 y2,
  turned x y p x1 y1 -> turned x1 y1 q x2 y2 -> turned x y (p + q) x2 y2.
Proof.
  intros x y p x1 y1 q x2 y2 [E1 E2] [E3 E4]. unfold turned. rewrite cos_plus, sin_plus. subst. split; ring.
Qed.

Lemma turned_mag : forall x y p x1 y1, turned x y p x1 y1 -> x1 * x1 + y1 * y1 = x * x + y * y.
Proof.
  intros x y p x1 y1 [E1 E2]. subst.
  replace ((x * cos p - y * sin p) * (x * cos p - y * sin p) + (x * sin p + y * cos p) * (x * sin p + y * cos p))
    with ((x * x + y * y) * (Rsqr (sin p) + Rsqr (cos p))) by (unfold Rsqr; ring).
  rewrite sin2_cos2. ring.
Qed.

Lemma Rotate_turned : forall (v : Vector2d RNum) (a : R), 5 / 100000 <= Rabs a ->
  exists phi, about_degrees a phi /\
    turned (v2x v) (v2y v) phi (v2x (@Vector2d_Rotate RNum v a)) (v2y (@Vector2d_Rotate RNum v a)).
Proof.
  intros v a Ha. destruct (Req_dec (mag v) 0) as [Z|Z].
  - exists (a * PI / 180). split; [apply about_refl|].
    assert (S := mag_sq v). rewrite Z in S.
    assert (X : (v2x v : R) = 0) by nra. assert (Y : (v2y v : R) = 0) by nra.
    rewrite Rotate_R. destruct Rlt_dec; [lra|]. cbn [v2x v2y]. rewrite Z. unfold turned. rewrite X, Y. split; ring.
  - assert (NZ : nz v) by (apply mag_pos; assert (P := mag_nonneg v); lra).
    destruct (Rotate_direction v a NZ Ha) as (t & e & E1 & E2 & E3 & E4 & E5).
    exists (a * PI / 180 + e). split.
    + unfold about_degrees. replace (a * PI / 180 + e - a * PI / 180) with e by ring. apply about_le. exact E5.
    + unfold turned. rewrite E3, E4.
      replace (t + a * (PI / 180) + e) with (t + (a * PI / 180 + e)) by field.
      set (q := a * PI / 180 + e). rewrite (cos_plus t q), (sin_plus t q).
      revert E1 E2. generalize (mag v). intros m E1 E2.
      change (@eq R (v2x v) (m * cos t)) in E1. change (@eq R (v2y v) (m * sin t)) in E2.
      split; [transitivity (m * cos t * cos q - m * sin t * sin q) | transitivity (m * cos t * sin q + m * sin t * cos q)];
        try ring; rewrite <- E1, <- E2; reflexivity.
Qed.

Lemma Rotate_small : forall (v : Vector2d RNum) (a : R), Rabs a < 5 / 100000 -> @Vector2d_Rotate RNum v a = v.
Proof. intros v a H. rewrite Rotate_R. destruct Rlt_dec; [reflexivity|contradiction]. Qed.

Lemma Rotate_twice : forall (v : Vector2d RNum) (a b : R), 5 / 100000 <= Rabs a -> 5 / 100000 <= Rabs b ->
  exists phi, Rabs (phi - (a + b) * PI / 180) <= (4 + Rabs a / 180 + Rabs b / 180) * (4 / 1000000000000000) /\
    turned (v2x v) (v2y v) phi
      (v2x (@Vector2d_Rotate RNum (@Vector2d_Rotate RNum v a) b))
      (v2y (@Vector2d_Rotate RNum (@Vector2d_Rotate RNum v a) b)).
Proof.
  intros v a b Ha Hb. destruct (Rotate_turned v a Ha) as (p & P1 & P2).
  destruct (Rotate_turned (@Vector2d_Rotate RNum v a) b Hb) as (q & Q1 & Q2).
  exists (p + q). split; [|eapply turned_comp; eassumption].
  unfold about_degrees in *.
  replace (p + q - (a + b) * PI / 180) with ((p - a * PI / 180) + (q - b * PI / 180)) by field.
  eapply Rle_trans; [apply Rabs_triang|]. lra.
Qed.

Lemma Rotate3_turned : forall (v : Vector3d RNum) p (a : R) ax1 ax2 ax3,
  plane_axes p = Some (ax1, ax2, ax3) -> 5 / 100000 <= Rabs a ->
  component (@Vector3d_Rotate RNum v p a) ax3 = component v ax3 /\
  exists phi, about_degrees a phi /\
    turned (component v ax1) (component v ax2) phi
      (component (@Vector3d_Rotate RNum v p a) ax1) (component (@Vector3d_Rotate RNum v p a) ax2).
Proof.
  intros v p a ax1 ax2 ax3 Hp Ha.
  assert (E : @Vector3d_Rotate RNum v p a =
    match @Vector3d_plane RNum v p with
    | None => v
    | Some v2 =>
        let r := @Vector2d_Rotate RNum v2 a in
        match p with
        | PlXy => mkVector3d (v2x r) (v2y r) (v3z v)
        | PlXz => mkVector3d (v2x r) (v3y v) (v2y r)
        | PlYx => mkVector3d (v2y r) (v2x r) (v3z v)
        | PlYz => mkVector3d (v3x v) (v2x r) (v2y r)
        | PlZx => mkVector3d (v2y r) (v3y v) (v2x r)
        | PlZy => mkVector3d (v3x v) (v2y r) (v2x r)
        | PlNull => v
        end
    end).
  { unfold Vector3d_Rotate. rn. rewrite flit_R.
    replace (IZR 5 * powerRZ 10 (-5)) with (5 / 100000) by (simpl; lra).
    unfold Rltb. destruct Rlt_dec; [lra|reflexivity]. }
  rewrite E. clear E. destruct p; cbn [plane_axes] in Hp; try discriminate; injection Hp as <- <- <-;
    cbn [Vector3d_plane component v3x v3y v3z]; (split; [reflexivity|]).
  - destruct (Rotate_turned (mkVector2d (N := RNum) (v3x v) (v3y v)) a Ha) as (q & Q); exists q; exact Q.
  - destruct (Rotate_turned (mkVector2d (N := RNum) (v3x v) (v3z v)) a Ha) as (q & Q); exists q; exact Q.
  - destruct (Rotate_turned (mkVector2d (N := RNum) (v3y v) (v3x v)) a Ha) as (q & Q); exists q; exact Q.
  - destruct (Rotate_turned (mkVector2d (N := RNum) (v3y v) (v3z v)) a Ha) as (q & Q); exists q; exact Q.
  - destruct (Rotate_turned (mkVector2d (N := RNum) (v3z v) (v3x v)) a Ha) as (q & Q); exists q; exact Q.
  - destruct (Rotate_turned (mkVector2d (N := RNum) (v3z v) (v3y v)) a Ha) as (q & Q); exists q; exact Q.
Qed.

Lemma Angle_spec : forall v : Vector2d RNum, nz v ->
  exists t, (v2x v : R) = @Vector2d_Magnitude RNum v * cos t /\ (v2y v : R) = @Vector2d_Magnitude RNum v * sin t /\
    0 <= t < 2 * PI /\ Rabs (@Vector2d_Angle RNum v false * PI / 180 - t) <= 16 / 1000000000000000.
Proof.
  intros v H. destruct (Angle_direction v H) as (t & E1 & E2 & B & D). exists t.
  rewrite mag_R. repeat split; try tauto; try lra. assert (PK := PI_K).
  replace (@Vector2d_Angle RNum v false * PI / 180) with (@Vector2d_Angle RNum v false * (PI / 180)) by (unfold Rdiv; apply eq_sym, Rmult_assoc).
  lra.
Qed.

Lemma Angle3_spec : forall (v : Vector3d RNum) p ax1 ax2 ax3 neg,
  plane_axes p = Some (ax1, ax2, ax3) ->
  @Vector3d_Angle RNum v p neg = @Vector2d_Angle RNum (mkVector2d (N := RNum) (component v ax1) (component v ax2)) neg.
Proof.
  intros v p ax1 ax2 ax3 neg Hp.
  destruct p; cbn [plane_axes] in Hp; try discriminate; injection Hp as <- <- <-; reflexivity.
Qed.

Lemma turned_mag3 : forall (v : Vector3d RNum) p (a : R),
  @Vector3d_Magnitude RNum (@Vector3d_Rotate RNum v p a) = @Vector3d_Magnitude RNum v.
Proof.
  intros v p a. unfold Vector3d_Magnitude. rn. rewrite !Rpow_2. f_equal.
  destruct (Rlt_dec (Rabs a) (5 / 100000)) as [S|S].
  - assert (E : @Vector3d_Rotate RNum v p a = v).
    { unfold Vector3d_Rotate. rn. rewrite flit_R.
      replace (IZR 5 * powerRZ 10 (-5)) with (5 / 100000) by (simpl; lra).
      unfold Rltb. destruct Rlt_dec; [reflexivity|contradiction]. }
    rewrite E. reflexivity.
  - destruct (plane_axes p) as [[[a1 a2] a3]|] eqn:Hp.
    + destruct (Rotate3_turned v p a a1 a2 a3 Hp ltac:(lra)) as (E3 & phi & _ & T).
      apply turned_mag in T. revert E3 T.
      destruct p; cbn [plane_axes] in Hp; try discriminate; injection Hp as <- <- <-; cbn [component];
        intros E3 T; rewrite E3; lra.
    + destruct p; try discriminate. unfold Vector3d_Rotate. cbn [Vector3d_plane].
      destruct (@fltb RNum (@fabs RNum a) (@flit RNum 5 (-5))); reflexivity.
Qed.

Lemma Angle_all : forall v : Vector2d RNum, nz v ->
  0 <= @Vector2d_Angle RNum v false < 360 /\ -180 < @Vector2d_Angle RNum v true <= 180 /\
  (@Vector2d_Angle RNum v true = @Vector2d_Angle RNum v false \/
   @Vector2d_Angle RNum v true = @Vector2d_Angle RNum v false - 360).
Proof.
  intros v H. split; [exact (Angle_range v H)|]. split; [exact (Angle_negative_range v H)|].
  destruct (Angle_negative v) as [E|[E _]]; [left|right]; exact E.
Qed.

Lemma angle_down_fact : @Vector2d_Angle RNum (mkVector2d (N := RNum) 0 (-2)) false = 270 /\
  @Vector2d_Angle RNum (mkVector2d (N := RNum) 0 (-2)) true = -90 /\
  plane_axes PlZy = Some (AxZ, AxY, AxX).
Proof.
  assert (C := K_pos).
  assert (E : @Vector2d_Angle RNum (mkVector2d (N := RNum) 0 (-2)) false = 270).
  { unfold Vector2d_Angle. cbn [v2x v2y]. rn. unfold Reqb, Rltb. rewrite !andb_false_r.
    destruct (Req_EM_T 0 0) as [_|n]; [|easy]. destruct (Rlt_dec 0 (-2)); [lra|].
    destruct (Rlt_dec (-2) 0); [|lra]. cbn [orb]. rewrite rad2deg_R, kPi_val. fold K. rfield. lra. }
  assert (NZ : nz (mkVector2d (N := RNum) 0 (-2))) by (right; cbn; lra).
  split; [exact E|]. split; [|reflexivity].
  assert (B := Angle_negative_range _ NZ). destruct (Angle_negative (mkVector2d (N := RNum) 0 (-2))) as [Q|[Q _]].
  - rewrite Q, E in B. lra.
  - rewrite Q, E. lra.
Qed.
