(** The swing angle and the tangent angles of the 3D catenary. *)
From Coq Require Import ZArith Bool List Reals Lra Psatz.
From Verif Require Import Num ProofReal HypFacts ModelBase ModelCatenary SpecVector ProofVector
  SpecCatenary3 SpecTangent ProofCatenary ProofCatenary3 ProofScale3.
Import ListNotations.
Open Scope R_scope.

Lemma near_direction : forall r t u e, 0 <= r -> Rabs (u - t) <= e -> e <= 1 / 1000000 ->
  Rabs (r * cos u - r * cos t) <= r / 1000000 /\ Rabs (r * sin u - r * sin t) <= r / 1000000.
Proof.
  intros r t u e Hr H E. assert (C := cos_lip u t). assert (S := sin_lip u t).
  rewrite <- !Rmult_minus_distr_l, !Rabs_mult, (Rabs_pos_eq r) by assumption.
  unfold Rdiv. split; apply Rmult_le_compat_l; lra.
Qed.

(** The angle of a vector is its direction. *)
Lemma angle_close : forall x y : R, x <> 0 \/ y <> 0 ->
  let r := sqrt (x * x + y * y) in let a := (Vector2d_Angle (mkVector2d (N := RNum) x y) true : R) in
  -180 <= a <= 180 /\ Rabs (r * cos (a * PI / 180) - x) <= r / 1000000 /\ Rabs (r * sin (a * PI / 180) - y) <= r / 1000000.
Proof.
  intros x y NZ. cbv zeta. set (v := mkVector2d (N := RNum) x y).
  assert (NZ' : nz v) by exact NZ.
  destruct (Angle_spec v NZ') as (t & X & Y & T0 & A). rewrite mag_R in X, Y. unfold mag in X, Y. cbn [v v2x v2y] in X, Y.
  assert (NR := Angle_negative_range v NZ').
  assert (R0 : 0 <= sqrt (x * x + y * y)) by apply sqrt_pos.
  set (r := sqrt (x * x + y * y)) in *. clearbody r. destruct (near_direction r t _ _ R0 A) as (C & S); [lra|].
  rewrite <- X in C. rewrite <- Y in S.
  split; [lra|]. destruct (Angle_negative v) as [Q|[Q _]]; rewrite Q; [split; assumption|].
  replace ((Vector2d_Angle v false - 360) * PI / 180) with (Vector2d_Angle v false * PI / 180 - 2 * PI) by rfield.
  assert (P1 := cos_period (Vector2d_Angle v false * PI / 180 - 2 * PI) 1).
  assert (P2 := sin_period (Vector2d_Angle v false * PI / 180 - 2 * PI) 1). cbn [INR] in P1, P2.
  replace (Vector2d_Angle v false * PI / 180 - 2 * PI + 2 * 1 * PI) with (Vector2d_Angle v false * PI / 180) in P1, P2 by rring.
  rewrite <- P1, <- P2. split; assumption.
Qed.

Lemma angle_points : forall x y : R, x <> 0 \/ y <> 0 ->
  points_at (Vector2d_Angle (mkVector2d (N := RNum) x y) true) x y.
Proof.
  intros x y NZ. destruct (angle_close x y NZ) as (A & B & C). assert (R0 := sqrt_pos (x * x + y * y)).
  split; [exact A|]. split; lra.
Qed.

Section Tangent3.
Variable c : Catenary3d RNum.
Hypothesis cur : c3_current c.
Hypothesis use : usable3 c.
Let sz : R := v3z (c3_spacing c).
Let wy : R := v3y (c3_weight c).
Let wz : R := v3z (c3_weight c).
Let d : Catenary2d RNum := c3_catenary_2d (c3_ensure c).
Let al : R := atan (wy / wz).

Lemma al_range : 0 <= al < PI / 2.
Proof using use.
  assert (Z := use_wz c use). assert (Y := use_wy c use). fold wy wz in Z, Y. split; [|exact (proj2 (atan_bound _))].
  unfold al. rewrite <- atan_0. destruct (Req_dec wy 0) as [E|E].
  - rewrite E. unfold Rdiv. rewrite Rmult_0_l. apply Rle_refl.
  - left. apply atan_increasing. apply Rdiv_lt_0_compat; lra.
Qed.

(** An angle near the one of the load. *)
Lemma load_points : forall a, -180 <= a <= 180 -> Rabs (cos (a * PI / 180) - cos al) <= 1 / 100000 ->
  Rabs (sin (a * PI / 180) - sin al) <= 1 / 100000 -> points_at a wz wy.
Proof using use.
  intros a A C S. unfold points_at. destruct (swing_W c use) as (WZ & WY). fold wy wz al in WZ, WY.
  replace (wz * wz + wy * wy) with (wy * wy + wz * wz) by ring. change (sqrt (wy * wy + wz * wz)) with (W3 c).
  assert (P := W3_pos c use). set (W := W3 c) in *. clearbody W. split; [exact A|].
  rewrite <- WZ, <- WY.
  rewrite <- !Rmult_minus_distr_l, !Rabs_mult, (Rabs_pos_eq W) by lra. unfold Rdiv in *.
  split; apply Rmult_le_compat_l; lra.
Qed.

Lemma swing_points : points_at (c3_SwingAngle c) wz wy.
Proof using cur use.
  assert (AR := al_range). assert (PK := PI_K). assert (KV : 3 < K < 16 / 5) by (unfold K; lra).
  assert (E : (c3_SwingAngle c : R) = al * (180 / K)) by (rewrite (swing_R c cur); apply rad2deg_R).
  assert (AB : 0 <= al * / K <= 1).
  { split; [apply Rmult_le_pos; [lra|left; apply Rinv_0_lt_compat; lra]|].
    apply Rmult_le_reg_r with K; [lra|]. rewrite Rmult_assoc, Rinv_l by lra. lra. }
  assert (D : Rabs (al * (180 / K) * PI / 180 - al) <= 1 / 100000).
  { replace (al * (180 / K) * PI / 180 - al) with ((al * / K) * (PI - K)) by (field; lra).
    rewrite Rabs_mult, !Rabs_pos_eq by lra. nra. }
  assert (C := cos_lip (al * (180 / K) * PI / 180) al). assert (S := sin_lip (al * (180 / K) * PI / 180) al).
  rewrite E. apply load_points; [|lra|lra].
  replace (al * (180 / K)) with (180 * (al * / K)) by (unfold Rdiv; ring). lra.
Qed.

Lemma tan_ens : forall (p : R) dir, c3_TangentVector (c3_ensure c) p dir = c3_TangentVector c p dir.
Proof. intros p dir. unfold c3_TangentVector. rewrite ensure3_idem. reflexivity. Qed.

Lemma vertical_points : forall (p : R) dir, let t := c3_TangentVector c p dir in
  (v3x t : R) <> 0 \/ (v3z t : R) <> 0 -> points_at (c3_TangentAngleVertical c p dir) (Rabs (v3x t)) (v3z t).
Proof.
  intros p dir t H. unfold c3_TangentAngleVertical. rewrite tan_ens. fold t. apply angle_points.
  destruct H as [H|H]; [left; apply Rabs_no_R0, H|right; exact H].
Qed.

(** The tangent seen along the line: in the plane of the load. *)
Lemma transverse_form : sz = 0 \/ wy = 0 -> forall (p : R) dir, dir <> ADNull ->
  exists phi m, Rabs (phi - side (c3_direction c) * al) <= 1 / 1000000 /\
    m = v2y (c2_TangentVector d p dir) /\
    (v3y (c3_TangentVector c p dir) : R) = - (m * sin phi) /\ (v3z (c3_TangentVector c p dir) : R) = m * cos phi.
Proof using cur use.
  intros H p dir Hd. assert (AR := al_range). assert (PK := PI_K). assert (KV : 3 < K < 16 / 5) by (unfold K; lra).
  destruct (Req_dec wy 0) as [Hy|Hy].
  - exists 0, (v2y (c2_TangentVector d p dir)). rewrite sin_0, cos_0.
    assert (A0 : al = 0) by (unfold al; rewrite Hy; unfold Rdiv; rewrite Rmult_0_l; apply atan_0).
    assert (T : c3_TangentVector c p dir =
      mkVector3d (N := RNum) (v2x (c2_TangentVector d p dir)) (0 : R) (v2y (c2_TangentVector d p dir))).
    { unfold c3_TangentVector. fold d. rewrite (e_weight c cur), (e_spacing c cur). rn. fold wy. rewrite Hy, Reqb_refl.
      cbn [negb]. rewrite andb_false_r. reflexivity. }
    rewrite T. cbn [v3y v3z]. rewrite A0, Rmult_0_r, Rminus_0_r, Rabs_R0. repeat split; try lra; req; ring.
  - assert (Hz : sz = 0) by tauto. set (sg := side (c3_direction c)).
    assert (ALB : Rabs (sg * al) <= 2).
    { rewrite Rabs_mult. assert (SG : Rabs sg = 1) by (unfold sg, side; destruct (c3_direction c); unfold Rabs; destruct Rcase_abs; lra).
      rewrite SG, (Rabs_pos_eq al); lra. }
    assert (T : c3_TangentVector c p dir =
      Vector3d_Rotate (mkVector3d (N := RNum) (v2x (c2_TangentVector d p dir)) (0 : R) (v2y (c2_TangentVector d p dir)))
        PlYz (@rad2deg RNum (sg * al))).
    { unfold c3_TangentVector. fold d. rewrite (e_weight c cur), (e_spacing c cur), (e_direction c cur). rn. fold wy sz.
      rewrite Hz, Reqb_refl. cbn [negb andb].
      assert (N0 : Reqb wy 0 = false) by (unfold Reqb; destruct Req_EM_T; [contradiction|reflexivity]).
      rewrite N0. cbn [negb].
      assert (SW : c3_SwingAngle (c3_ensure c) = @rad2deg RNum al).
      { unfold c3_SwingAngle. rewrite ensure3_idem. exact (swing_R c cur). }
      rewrite SW. f_equal. rewrite !rad2deg_R. unfold sg, side. destruct (c3_direction c); rn; req; ring. }
    destruct (rotation_near (mkVector3d (N := RNum) (v2x (c2_TangentVector d p dir)) (0 : R) (v2y (c2_TangentVector d p dir)))
      PlYz (sg * al) AxY AxZ AxX Logic.eq_refl ALB) as (_ & phi & P & Y & Z).
    exists phi, (v2y (c2_TangentVector d p dir)). rewrite T. cbn [component v3x v3y v3z] in Y, Z.
    rewrite Y, Z. repeat split; [exact P|ring|ring].
Qed.

Lemma transverse_points : sz = 0 \/ wy = 0 -> forall (p : R) dir, dir <> ADNull ->
  p <> c3_PositionFractionOrigin c -> points_at (c3_TangentAngleTransverse c p dir) wz wy.
Proof using cur use.
  intros H p dir Hd Hp. destruct (transverse_form H p dir Hd) as (phi & m & P & M & Y & Z).
  assert (AR := al_range). assert (PK := PI_K).
  assert (M0 : m <> 0).
  { intros Q. apply Hp. assert (S0 : sinh (ct d p) = 0).
    { rewrite M, (tangentvector_R d (d_current c cur) (d_h_pos c cur use) (d_w_pos c cur use)) in Q by assumption.
      assert (PC := cosh_pos (ct d p)). assert (Q' : sinh (ct d p) / cosh (ct d p) = 0) by (destruct dir; cbn [v2y] in Q; lra).
      apply Rmult_eq_reg_r with (/ cosh (ct d p)); [|apply Rinv_neq_0_compat; lra]. rewrite Rmult_0_l. exact Q'. }
    assert (C0 : ct d p = 0) by (apply sinh_inj; rewrite sinh_0; exact S0).
    assert (O := origin_sinh d (d_current c cur) (d_h_pos c cur use) (d_w_pos c cur use) (d_a_pos c cur use)).
    change (c3_PositionFractionOrigin c) with (c2_PositionFractionOrigin d). change (F RNum) with R in *.
    assert (L := ct_lt d (d_h_pos c cur use) (d_w_pos c cur use) (d_a_pos c cur use)).
    destruct (Rtotal_order p (c2_PositionFractionOrigin d)) as [G|[G|G]]; [apply L in G; lra|exact G|apply L in G; lra]. }
  assert (E : (c3_TangentAngleTransverse c p dir : R) = Vector2d_Angle (mkVector2d (N := RNum) (Rabs (cos phi)) (Rabs (sin phi))) true).
  { unfold c3_TangentAngleTransverse. rewrite tan_ens.
    change (Vector2d_Angle (mkVector2d (N := RNum) (Rabs (v3z (c3_TangentVector c p dir))) (Rabs (v3y (c3_TangentVector c p dir)))) true =
      Vector2d_Angle (mkVector2d (N := RNum) (Rabs (cos phi)) (Rabs (sin phi))) true).
    rewrite Y, Z, Rabs_Ropp, !Rabs_mult. apply angle_multiple, Rabs_pos_lt, M0. }
  assert (SC := sin2_cos2 phi). unfold Rsqr in SC.
  assert (QQ : Rabs (cos phi) * Rabs (cos phi) + Rabs (sin phi) * Rabs (sin phi) = 1)
    by (rewrite <- !Rabs_mult, !Rabs_pos_eq by nra; lra).
  destruct (angle_close (Rabs (cos phi)) (Rabs (sin phi))) as (A & B & D).
  { destruct (Req_dec (cos phi) 0) as [Q|Q]; [right|left]; apply Rabs_no_R0; [|exact Q]. intros Q'. rewrite Q, Q' in SC. lra. }
  cbv zeta in A, B, D. rewrite <- E in A, B, D. rewrite QQ, sqrt_1, !Rmult_1_l in B, D.
  assert (CA : Rabs (cos (side (c3_direction c) * al)) = cos al).
  { replace (cos (side (c3_direction c) * al)) with (cos al).
    - apply Rabs_pos_eq. apply cos_ge_0; lra.
    - unfold side. destruct (c3_direction c); [rewrite Rmult_1_l; reflexivity| |rewrite Rmult_1_l; reflexivity].
      replace (-1 * al) with (- al) by ring. symmetry. apply cos_neg. }
  assert (SA : Rabs (sin (side (c3_direction c) * al)) = sin al).
  { assert (0 <= sin al) by (apply sin_ge_0; lra). unfold side.
    destruct (c3_direction c); rewrite ?Rmult_1_l; try (apply Rabs_pos_eq; assumption).
    replace (-1 * al) with (- al) by ring. rewrite sin_neg, Rabs_Ropp. apply Rabs_pos_eq. assumption. }
  assert (C1 := cos_lip phi (side (c3_direction c) * al)). assert (S1 := sin_lip phi (side (c3_direction c) * al)).
  assert (C2 := Rabs_triang_inv2 (cos phi) (cos (side (c3_direction c) * al))).
  assert (S2 := Rabs_triang_inv2 (sin phi) (sin (side (c3_direction c) * al))). rewrite CA in C2. rewrite SA in S2.
  apply load_points; try assumption.
  - replace (cos (c3_TangentAngleTransverse c p dir * PI / 180) - cos al) with
      ((cos (c3_TangentAngleTransverse c p dir * PI / 180) - Rabs (cos phi)) + (Rabs (cos phi) - cos al)) by ring.
    eapply Rle_trans; [apply Rabs_triang|]. lra.
  - replace (sin (c3_TangentAngleTransverse c p dir * PI / 180) - sin al) with
      ((sin (c3_TangentAngleTransverse c p dir * PI / 180) - Rabs (sin phi)) + (Rabs (sin phi) - sin al)) by ring.
    eapply Rle_trans; [apply Rabs_triang|]. lra.
Qed.
(** At the low point the tangent has no part across the line. *)
Lemma transverse_low : sz = 0 \/ wy = 0 -> forall dir, dir <> ADNull ->
  (c3_TangentAngleTransverse c (c3_PositionFractionOrigin c) dir : R) = -999999.
Proof using cur use.
  intros H dir Hd. change (c3_PositionFractionOrigin c) with (c2_PositionFractionOrigin d).
  destruct (transverse_form H (c2_PositionFractionOrigin d) dir Hd) as (phi & m & _ & M & Y & Z).
  assert (M0 : m = 0).
  { rewrite M, (tangentvector_R d (d_current c cur) (d_h_pos c cur use) (d_w_pos c cur use)) by assumption.
    rewrite (origin_sinh d (d_current c cur) (d_h_pos c cur use) (d_w_pos c cur use) (d_a_pos c cur use)), sinh_0.
    destruct dir; cbn [v2y]; unfold Rdiv; rewrite Rmult_0_l, ?Ropp_0; reflexivity. }
  unfold c3_TangentAngleTransverse. rewrite tan_ens.
  change (Vector2d_Angle (mkVector2d (N := RNum) (Rabs (v3z (c3_TangentVector c (c2_PositionFractionOrigin d) dir)))
    (Rabs (v3y (c3_TangentVector c (c2_PositionFractionOrigin d) dir)))) true = -999999).
  rewrite Y, Z, M0, !Rmult_0_l, Ropp_0, Rabs_R0. unfold Vector2d_Angle. cbn [v2x v2y]. rn.
  unfold Reqb, Rltb. destruct (Req_EM_T 0 0); [|lra]. cbn [orb]. destruct (Rlt_dec 0 0); [lra|]. unfold ferr. rn. reflexivity.
Qed.

Lemma level_origin : sz = 0 -> 0 < c3_PositionFractionOrigin c < 1.
Proof using cur use.
  intros Hz. change (c3_PositionFractionOrigin c) with (c2_PositionFractionOrigin d).
  assert (Hh := d_h_pos c cur use). assert (Hw := d_w_pos c cur use). assert (Ha := d_a_pos c cur use). fold d in Hh, Hw, Ha.
  assert (O := origin_sinh d (d_current c cur) Hh Hw Ha).
  assert (U0 : cu d = 0).
  { apply sinh_inj. rewrite sinh_0. assert (B := b_kz d Hh Hw Ha). unfold d in B at 1. rewrite (d_spacing c cur use) in B. cbn [v2y] in B.
    unfold b3 in B. fold sz in B. rewrite Hz in B. rewrite Rmult_0_l in B.
    assert (Pk := ck_pos d Hh Hw). assert (Pz := sinh_pos _ (cz_pos d Hh Hw Ha)).
    apply Rmult_eq_reg_r with (2 * ck d * sinh (cz d)); [|apply Rgt_not_eq; apply Rmult_lt_0_compat; lra]. lra. }
  assert (Pz := cz_pos d Hh Hw Ha). assert (L := ct_le d Hh Hw Ha). change (F RNum) with R in *.
  assert (C0 := ct_0 d). assert (C1 := ct_1 d). rewrite U0 in C0, C1.
  split; apply Rnot_le_lt; intros G; apply L in G; lra.
Qed.
End Tangent3.

(** ** A level span with transverse load *)
Definition low_calls : list (C3Call RNum) :=
  [ C3SetSpacing (mkVector3d (N := RNum) (1000 : R) (0 : R) (0 : R)); C3SetWeight (mkVector3d (N := RNum) (0 : R) (3 : R) (4 : R));
    C3SetTension (N := RNum) (5000 : R) ].
Definition low : Catenary3d RNum := c3_run Catenary3d_default low_calls.
Lemma low_usable : usable3 low.
Proof. unfold usable3. cbn. lra. Qed.
Lemma low_current : c3_current low. Proof. apply run3_usable. Qed.
Lemma low_valid : c3_Validate low = true.
Proof.
  unfold c3_Validate.
  assert (I : c3_inputs_valid low = true).
  { unfold c3_inputs_valid. cbn [low low_calls c3_run fold_left c3_call c3_set_tension c3_set_weight c3_set_spacing c3_spacing c3_weight v3x v3y v3z].
    rn. rewrite Rabs_R0. unfold Rleb, Rltb, Reqb.
    repeat first [ destruct Rle_dec; try lra | destruct Rlt_dec; try lra | destruct Req_EM_T; try lra ]; try reflexivity. }
  rewrite I. unfold c2_Validate, c2_ValidateCurveAndSpacing, c2_Constant, c2_ConstantMinimum.
  rewrite (d_spacing low low_current low_usable), (d_tension low low_current), (d_weight low low_current low_usable).
  assert (WE : W3 low = 5) by (unfold W3; cbn; replace (3 * 3 + 4 * 4) with (5 * 5) by ring; apply sqrt_square; lra).
  assert (BE : b3 low = 0) by (unfold b3; cbn; apply Rmult_0_l).
  assert (SE : S3 low = 1000) by (unfold S3; cbn; replace (1000 * 1000 + 0 * 0) with (1000 * 1000) by ring; apply sqrt_square; lra).
  assert (AE : a3 low = 1000).
  { unfold a3. rewrite SE, BE. replace (1000 * 1000 - 0 * 0) with (1000 * 1000) by ring. apply sqrt_square; lra. }
  rewrite mag_R, (mag_ab low low_usable), AE, BE, WE, SE. cbn [v2x v2y].
  assert (TE : (c3_tension_horizontal low : R) = 5000) by reflexivity. rewrite TE.
  rn. rewrite Rabs_R0. unfold Rleb, Rltb.
  repeat first [ destruct Rle_dec; try lra | destruct Rlt_dec; try lra ]. all: try reflexivity.
Qed.

Lemma low_facts : exists p : R, 0 < p < 1 /\ usable3 low /\ c3_Validate low = true /\
  (forall dir, dir <> ADNull -> (c3_TangentAngleTransverse low p dir : R) = -999999) /\
  (forall (q : R) dir, dir <> ADNull -> q <> p -> points_at (c3_TangentAngleTransverse low q dir) 4 3).
Proof.
  exists (c3_PositionFractionOrigin low).
  assert (Z : (v3z (c3_spacing low) : R) = 0) by reflexivity.
  split; [exact (level_origin low low_current low_usable Z)|]. split; [exact low_usable|]. split; [exact low_valid|].
  split; [exact (transverse_low low low_current low_usable (or_introl Z))|].
  exact (transverse_points low low_current low_usable (or_introl Z)).
Qed.
