(** Catenary3d: the two directions of the transverse load. *)
From Coq Require Import ZArith Bool List Reals Lra Psatz.
From Verif Require Import Num NumFacts ProofReal HypFacts ModelBase ModelCatenary SpecVector SpecWindSide ProofVector ProofCatenary ProofCatenary3.
Import ListNotations.
Open Scope R_scope.

Lemma quarter_turn : forall z : R, z <> 0 -> Rabs (cos (arad (mkVector2d (N := RNum) 0 z))) <= 1 / 100000000000000.
Proof.
  intros z Z. rewrite arad_cases by (right; exact Z). assert (P := PI_K).
  destruct (Rlt_dec 0 z); [|destruct (Rlt_dec z 0); [|lra]]; destruct (Rlt_dec 0 0); try lra.
  - replace (K / 2) with (PI / 2 - (PI - K) / 2) by lra. rewrite cos_shift.
    rewrite Rabs_right; [|apply Rle_ge, sin_ge_0; unfold K in *; lra].
    left. apply Rlt_le_trans with ((PI - K) / 2); [apply sin_lt_x; unfold K in *; lra|unfold K in *; lra].
  - replace (3 * (K / 2)) with (PI / 2 - 3 * (PI - K) / 2 + PI) by lra. rewrite neg_cos, cos_shift, Rabs_Ropp.
    rewrite Rabs_right; [|apply Rle_ge, sin_ge_0; unfold K in *; lra].
    left. apply Rlt_le_trans with (3 * (PI - K) / 2); [apply sin_lt_x; unfold K in *; lra|unfold K in *; lra].
Qed.

Lemma small_opposite : forall a : R, Rltb (Rabs (a * -1)) (5 / 100000) = Rltb (Rabs a) (5 / 100000).
Proof. intros a. replace (a * -1) with (- a) by ring. rewrite Rabs_Ropp. reflexivity. Qed.

Lemma rotate_mirror : forall (v : Vector3d RNum) (a : R), (v3y v : R) = 0 ->
  mirror_image (Vector3d_Rotate v PlYz a) (Vector3d_Rotate v PlYz (a * -1)).
Proof.
  intros [x y z] a Y. cbn [v3y] in Y. change (F RNum) with R in *. subst y. unfold Vector3d_Rotate. rn.
  replace (flit (n := RNum) 5 (-5)) with (5 / 100000) by (rewrite flit_R; simpl; lra). rewrite small_opposite.
  assert (PZ := Rabs_pos z).
  unfold Rltb at 1 2. destruct (Rlt_dec (Rabs a) (5 / 100000)) as [L|L].
  { unfold mirror_image. cbn [v3x v3y v3z]. change (F RNum) with R in *. split; [reflexivity|].
    rewrite Rplus_0_r, Rminus_diag_eq by reflexivity. rewrite Rabs_R0. split; lra. }
  cbn [Vector3d_plane v3x v3y v3z]. rewrite !Rotate_R.
  destruct (Rlt_dec (Rabs a) (5 / 100000)) as [L1|_]; [contradiction|].
  destruct (Rlt_dec (Rabs (a * -1)) (5 / 100000)) as [L2|_].
  { exfalso. apply L. replace (a * -1) with (- a) in L2 by ring. rewrite Rabs_Ropp in L2. exact L2. }
  set (u := mkVector2d (N := RNum) 0 z). set (t := a * (K / 180)).
  replace (a * -1 * (K / 180)) with (- t) by (unfold t; ring).
  unfold mirror_image. cbn [v3x v3y v3z v2x v2y]. change (F RNum) with R in *. split; [reflexivity|].
  rewrite !cos_plus, !sin_plus, cos_neg, sin_neg.
  assert (M0 := mag_nonneg u).
  destruct (Req_dec z 0) as [Z|Z].
  { assert (M : mag u = 0). { unfold mag, u. cbn [v2x v2y]. rewrite Z. replace (0 * 0 + 0 * 0) with 0 by ring. apply sqrt_0. }
    rewrite M, !Rmult_0_l, Rplus_0_r, Rminus_0_r, Rabs_R0. split; lra. }
  assert (C := quarter_turn z Z). fold u in C.
  set (al := arad u) in *. clearbody al t.
  assert (S : mag u <= (Rabs (mag u * (cos al * cos t - sin al * sin t)) + Rabs (mag u * (sin al * cos t + cos al * sin t)))).
  { rewrite <- cos_plus, <- sin_plus, !Rabs_mult, (Rabs_right (mag u)) by lra.
    assert (G := sin2_cos2 (al + t)). unfold Rsqr in G.
    assert (A1 := Rabs_pos (cos (al + t))). assert (A2 := Rabs_pos (sin (al + t))).
    assert (B1 : Rabs (cos (al + t)) * Rabs (cos (al + t)) = cos (al + t) * cos (al + t)) by (rewrite <- Rabs_mult; apply Rabs_right, Rle_ge, Rle_0_sqr).
    assert (B2 : Rabs (sin (al + t)) * Rabs (sin (al + t)) = sin (al + t) * sin (al + t)) by (rewrite <- Rabs_mult; apply Rabs_right, Rle_ge, Rle_0_sqr).
    assert (1 <= Rabs (cos (al + t)) + Rabs (sin (al + t))) by nra. nra. }
  set (w := Rabs (mag u * (cos al * cos t - sin al * sin t)) + Rabs (mag u * (sin al * cos t + cos al * sin t))) in *. clearbody w.
  assert (T : Rabs (cos t) <= 1) by (apply Rabs_le; destruct (COS_bound t); lra).
  assert (T' : Rabs (sin t) <= 1) by (apply Rabs_le; destruct (SIN_bound t); lra).
  assert (Q : forall s, Rabs s <= 1 -> Rabs (2 * mag u * (cos al * s)) <= w / 1000000000000).
  { intros s Hs. rewrite !Rabs_mult, (Rabs_right 2), (Rabs_right (mag u)) by lra.
    assert (X := Rabs_pos (cos al)). assert (X' := Rabs_pos s).
    assert (Rabs (cos al) * Rabs s <= 1 / 100000000000000) by nra. nra. }
  split.
  - eapply Rle_trans; [|apply (Q (cos t) T)]. right. f_equal. ring.
  - eapply Rle_trans; [|apply (Q (sin t) T')]. right. f_equal. ring.
Qed.

Lemma scale_mirror : forall (v w : Vector3d RNum) (k : R), mirror_image v w -> mirror_image (Vector3d_Scale v k) (Vector3d_Scale w k).
Proof.
  intros [x y z] [x' y' z'] k. unfold mirror_image, Vector3d_Scale. cbn [v3x v3y v3z]. rn. change (F RNum) with R in *.
  intros (E1 & E2 & E3). split; [rewrite E1; reflexivity|].
  replace (y * k + y' * k) with ((y + y') * k) by ring. replace (z * k - z' * k) with ((z - z') * k) by ring.
  rewrite !Rabs_mult. assert (P := Rabs_pos k). split; nra.
Qed.

Lemma rotate_y : forall (v : Vector3d RNum) (a : R), v3y (Vector3d_Rotate v PlXz a) = v3y v.
Proof.
  intros v a. unfold Vector3d_Rotate. cbn [Vector3d_plane]. destruct (fltb _ _); reflexivity.
Qed.

Lemma side_ensure : forall (c : Catenary3d RNum) d, c3_ensure (c3_set_direction c d) = c3_set_direction (c3_ensure c) d.
Proof. intros c d. unfold c3_ensure, c3_set_direction. cbn [c3_is_updated]. destruct (c3_is_updated c) eqn:E; [rewrite E|]; reflexivity. Qed.

Lemma side_chord : forall (c : Catenary3d RNum) d (p : R), c3_CoordinateChord (c3_set_direction c d) p = c3_CoordinateChord c p.
Proof. intros c d p. unfold c3_CoordinateChord. rewrite side_ensure. reflexivity. Qed.

Section Side.
Variable c : Catenary3d RNum.
Let pos : Catenary3d RNum := c3_set_direction c ADPositive.
Let neg : Catenary3d RNum := c3_set_direction c ADNegative.

Lemma side_coordinate : forall p : R,
  p3x (c3_Coordinate pos p) = p3x (c3_Coordinate neg p) :> R /\
  mirror_image (vector_between (c3_CoordinateChord pos p) (c3_Coordinate pos p)) (vector_between (c3_CoordinateChord neg p) (c3_Coordinate neg p)).
Proof using.
  intros p.
  set (v := Vector3d_Rotate (mkVector3d (N := RNum)
      (fsub (p2x (c2_Coordinate (c3_catenary_2d (c3_ensure c)) p true)) (p2x (c2_CoordinateChord (c3_catenary_2d (c3_ensure c)) p true))) (fofZ 0)
      (fsub (p2y (c2_Coordinate (c3_catenary_2d (c3_ensure c)) p true)) (p2y (c2_CoordinateChord (c3_catenary_2d (c3_ensure c)) p true))))
    PlXz (fsub (Vector3d_Angle (c3_spacing (c3_ensure c)) PlXz false) (Vector2d_Angle (c2_spacing (c3_catenary_2d (c3_ensure c))) false))).
  assert (Y : (v3y v : R) = 0) by (unfold v; rewrite rotate_y; cbn [v3y]; rn; reflexivity).
  assert (M := rotate_mirror v (Vector3d_Angle (c3_weight (c3_ensure c)) PlZy false) Y).
  assert (CH : forall d, c3_CoordinateChord (c3_ensure (c3_set_direction c d)) p = c3_CoordinateChord c p).
  { intros d. rewrite side_ensure, side_chord. unfold c3_CoordinateChord. rewrite ensure3_idem. reflexivity. }
  unfold pos, neg, c3_Coordinate. rewrite !CH, !side_chord, !side_ensure.
  cbn [c3_set_direction c3_catenary_2d c3_direction c3_spacing c3_weight p3x p3y p3z].
  fold v. replace (fofZ (N := RNum) (-1)) with (-1 : R) by (rn; reflexivity).
  change (fmul (n := RNum)) with Rmult. change (fadd (n := RNum)) with Rplus.
  set (r := Vector3d_Rotate v PlYz (Vector3d_Angle (c3_weight (c3_ensure c)) PlZy false)) in *.
  set (s := Vector3d_Rotate v PlYz (Vector3d_Angle (c3_weight (c3_ensure c)) PlZy false * -1)%R) in *.
  destruct M as (M1 & M2 & M3). clearbody r s. change (F RNum) with R in *.
  split; [rewrite M1; reflexivity|]. unfold mirror_image, vector_between. cbn [v3x v3y v3z p3x p3y p3z].
  assert (Z : forall a b : R, a + b - a = b) by (intros; ring). rewrite !Z.
  split; [exact M1|]. split; [exact M2|exact M3].
Qed.

Lemma mirror_same : forall v : Vector3d RNum, (v3y v : R) = 0 -> mirror_image v v.
Proof.
  intros [x y z] Y. cbn [v3y] in Y. unfold mirror_image. cbn [v3x v3y v3z]. change (F RNum) with R in *. subst y.
  assert (P := Rabs_pos z). split; [reflexivity|]. rewrite Rplus_0_r, Rminus_diag_eq by reflexivity. rewrite Rabs_R0. split; lra.
Qed.

Lemma side_tangent : forall (p : R) d, mirror_image (c3_TangentVector pos p d) (c3_TangentVector neg p d).
Proof using.
  intros p d.
  assert (SW : forall e, c3_SwingAngle (c3_set_direction (c3_ensure c) e) = c3_SwingAngle (c3_ensure c)).
  { intros e. unfold c3_SwingAngle. rewrite side_ensure. reflexivity. }
  unfold pos, neg, c3_TangentVector. rewrite !side_ensure, !SW.
  cbn [c3_set_direction c3_catenary_2d c3_direction c3_spacing c3_weight c3_is_updated].
  match goal with |- mirror_image (if ?b then Vector3d_Rotate ?v _ _ else _) _ => set (w := v) end.
  assert (Y : (v3y w : R) = 0).
  { unfold w. destruct (_ && _); [rewrite rotate_y|]; cbn [v3y]; rn; reflexivity. }
  clearbody w. destruct (negb _); [|apply mirror_same; exact Y].
  rn. apply rotate_mirror. exact Y.
Qed.

Lemma side_tension : forall (p : R) d, mirror_image (c3_TensionVector pos p d) (c3_TensionVector neg p d).
Proof using.
  intros p d. unfold c3_TensionVector.
  assert (E : forall x : Catenary3d RNum, c3_TangentVector (c3_ensure x) p d = c3_TangentVector x p d).
  { intros x. unfold c3_TangentVector. rewrite ensure3_idem. reflexivity. }
  rewrite !E. assert (T : c3_catenary_2d (c3_ensure pos) = c3_catenary_2d (c3_ensure neg)) by (unfold pos, neg; rewrite !side_ensure; reflexivity).
  rewrite T. apply scale_mirror, side_tangent.
Qed.
End Side.

Lemma side_answers : forall c : Catenary3d RNum, let pos := c3_set_direction c ADPositive in let neg := c3_set_direction c ADNegative in
  (forall p : R, c3_CoordinateChord pos p = c3_CoordinateChord neg p /\
    mirror_image (vector_between (c3_CoordinateChord pos p) (c3_Coordinate pos p)) (vector_between (c3_CoordinateChord neg p) (c3_Coordinate neg p))) /\
  (forall (p : R) d, mirror_image (c3_TangentVector pos p d) (c3_TangentVector neg p d) /\
    mirror_image (c3_TensionVector pos p d) (c3_TensionVector neg p d)) /\
  c3_Constant pos = c3_Constant neg /\ c3_Length pos = c3_Length neg /\ c3_LengthSlack pos = c3_LengthSlack neg /\
  c3_PositionFractionOrigin pos = c3_PositionFractionOrigin neg /\
  c3_PositionFractionSagPoint pos = c3_PositionFractionSagPoint neg /\ c3_Sag pos = c3_Sag neg /\
  (forall p : R, c3_SagAt pos p = c3_SagAt neg p /\ c3_Tension pos p = c3_Tension neg p) /\
  c3_SwingAngle pos = c3_SwingAngle neg /\ (forall n, c3_TensionAverage pos n = c3_TensionAverage neg n) /\
  c3_TensionMax pos = c3_TensionMax neg /\ c3_Validate pos = c3_Validate neg.
Proof.
  intros c pos neg.
  assert (E : c3_catenary_2d (c3_ensure pos) = c3_catenary_2d (c3_ensure neg)) by (unfold pos, neg; rewrite !side_ensure; reflexivity).
  assert (W : c3_weight (c3_ensure pos) = c3_weight (c3_ensure neg)) by (unfold pos, neg; rewrite !side_ensure; reflexivity).
  split; [intros p; split; [unfold pos, neg; rewrite !side_chord; reflexivity|apply side_coordinate]|].
  split; [intros p d; split; [apply side_tangent|apply side_tension]|].
  unfold c3_Constant, c3_Length, c3_LengthSlack, c3_PositionFractionOrigin, c3_PositionFractionSagPoint, c3_Sag, c3_SagAt, c3_Tension,
    c3_SwingAngle, c3_TensionAverage, c3_TensionMax, c3_Validate. rewrite E, W.
  repeat split; reflexivity.
Qed.
