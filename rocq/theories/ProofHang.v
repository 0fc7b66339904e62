(** The direction in which the 3D curve hangs from its chord. *)
From Coq Require Import ZArith Bool List Reals Lra Psatz.
From Verif Require Import Num ProofReal HypFacts ModelBase ModelCatenary SpecVector ProofVector
  SpecCatenary3 SpecTangent ProofCatenary ProofCatenary3 ProofTangent3.
Import ListNotations.
Open Scope R_scope.

Lemma angle_first : forall x y : R, 0 < x -> 0 <= y ->
  (Vector2d_Angle (mkVector2d (N := RNum) x y) false : R) = @rad2deg RNum (atan (y / x)).
Proof.
  intros x y X Y. set (v := mkVector2d (N := RNum) x y). assert (NZ : nz v) by (left; cbn [v v2x]; lra).
  assert (A := angle_atan x y X). fold v in A. assert (Rg := Angle_range v NZ). assert (KP := K_pos).
  assert (T : 0 <= atan (y / x)).
  { rewrite <- atan_0. destruct Y as [Y| <-]; [left; apply atan_increasing; apply Rdiv_lt_0_compat; lra|].
    unfold Rdiv. rewrite Rmult_0_l. apply Rle_refl. }
  assert (E : (Vector2d_Angle v true : R) = @rad2deg RNum (atan (y / x))).
  { rewrite rad2deg_R, <- A, deg2rad_R. rfield. lra. }
  destruct (Angle_negative v) as [Q|[Q _]]; [rewrite <- E; symmetry; exact Q|].
  exfalso. rewrite Q in E. rewrite rad2deg_R in E. assert (0 <= atan (y / x) * (180 / K)) by (apply Rmult_le_pos; [exact T|left; apply Rdiv_lt_0_compat; lra]).
  change (F RNum) with R in *. lra.
Qed.

Lemma Rotate3_none : forall (v : Vector3d RNum) pl, Vector3d_Rotate v pl (0 : R) = v.
Proof.
  intros v pl. unfold Vector3d_Rotate. rn. rewrite flit_R, Rabs_R0.
  replace (IZR 5 * powerRZ 10 (-5)) with (5 / 100000) by (simpl; lra).
  unfold Rltb. destruct Rlt_dec; [reflexivity|lra].
Qed.

Section Hang.
Variable c : Catenary3d RNum.
Hypothesis cur : c3_current c.
Hypothesis use : usable3 c.
Let sx : R := v3x (c3_spacing c).
Let sz : R := v3z (c3_spacing c).
Let wy : R := v3y (c3_weight c).
Let wz : R := v3z (c3_weight c).
Let al : R := atan (wy / wz).

Lemma hang_form : forall p : R, let q := c3_Coordinate c p in let r := c3_CoordinateChord c p in
  let v := Vector3d_Rotate (Vector3d_Rotate (mkVector3d (N := RNum) (0 : R) (0 : R) (- c3_SagAt c p)) PlXz (delta3 c)) PlYz
    (@rad2deg RNum (side (c3_direction c) * al)) in
  p3x q - p3x r = v3x v :> R /\ p3y q - p3y r = v3y v :> R /\ p3z q - p3z r = v3z v :> R.
Proof using cur use.
  intros p q r v. unfold q, c3_Coordinate.
  assert (Q : c3_CoordinateChord (c3_ensure c) p = r).
  { unfold r, c3_CoordinateChord. rewrite ensure3_idem. reflexivity. }
  rewrite Q, (chord2_R c cur use), (curve2_R c cur use), (e_spacing c cur), (e_weight c cur), (e_direction c cur), (d_spacing c cur use).
  cbn [p2x p2y p3x p3y p3z]. rn.
  assert (W : Vector3d_Angle (c3_weight c) PlZy false = @rad2deg RNum al).
  { unfold Vector3d_Angle. cbn [Vector3d_plane]. exact (angle_first wz wy (use_wz c use) (use_wy c use)). }
  assert (A : match c3_direction c with ADNegative => fmul (n := RNum) (Vector3d_Angle (c3_weight c) PlZy false) (-1 : R) | _ => Vector3d_Angle (c3_weight c) PlZy false end
    = @rad2deg RNum (side (c3_direction c) * al)).
  { rewrite W, !rad2deg_R. unfold side. destruct (c3_direction c); rn; req; ring. }
  rn. unfold v. rewrite <- A. rn. change (c3_SagAt c p) with (c2_SagAt (c3_catenary_2d (c3_ensure c)) p). fold (delta3 c).
  replace (frac3 c p * a3 c - frac3 c p * a3 c) with 0 by ring.
  replace (frac3 c p * b3 c - c2_SagAt (c3_catenary_2d (c3_ensure c)) p - frac3 c p * b3 c) with (- c2_SagAt (c3_catenary_2d (c3_ensure c)) p) by rring.
  repeat split; req; ring.
Qed.

Lemma delta3_none : sz = 0 \/ wy = 0 -> delta3 c = 0.
Proof using use.
  intros H. assert (X := use_sx c use). assert (Z := use_wz c use). assert (AP := a3_pos c use). fold sx in X. fold wz in Z.
  assert (B : b3 c = sz).
  { destruct H as [H|H]; unfold b3; fold sz; [rewrite H; ring|].
    assert (WW : W3 c = wz). { unfold W3. fold wy wz. rewrite H. replace (0 * 0 + wz * wz) with (wz * wz) by ring. apply sqrt_square. lra. }
    rewrite WW. fold wz. field. lra. }
  assert (A : a3 c = sx).
  { assert (Q := a3_sq c use). rewrite B, (S3_sq c) in Q. fold sx sz in Q. change (F RNum) with R in *. nra. }
  unfold delta3. rewrite A, B. unfold Vector3d_Angle. cbn [Vector3d_plane]. fold sx sz. req. ring.
Qed.

Lemma hang_load : sz = 0 \/ wy = 0 -> forall p : R, let q := c3_Coordinate c p in let r := c3_CoordinateChord c p in
  let s : R := c3_SagAt c p in let w := length3 0 wy wz in
  p3x q = p3x r :> R /\
  Rabs (w * (p3y q - p3y r) - side (c3_direction c) * (s * wy)) <= w * Rabs s / 100000 /\
  Rabs (w * (p3z q - p3z r) + s * wz) <= w * Rabs s / 100000.
Proof using cur use.
  intros H p q r s w. destruct (hang_form p) as (X & Y & Z). fold q r s in X, Y, Z.
  rewrite (delta3_none H), Rotate3_none in X, Y, Z.
  assert (AR := al_range c use). fold wy wz in AR. fold al in AR. assert (PK := PI_K). assert (KV : 3 < K < 16 / 5) by (unfold K; lra).
  assert (WE : w = W3 c) by (unfold w, length3, W3; fold wy wz; f_equal; ring).
  assert (ALB : Rabs (side (c3_direction c) * al) <= 2).
  { rewrite Rabs_mult. assert (SG : Rabs (side (c3_direction c)) = 1) by (unfold side; destruct (c3_direction c); unfold Rabs; destruct Rcase_abs; lra).
    rewrite SG, (Rabs_pos_eq al); lra. }
  destruct (rotation_near (mkVector3d (N := RNum) (0 : R) (0 : R) (- s)) PlYz (side (c3_direction c) * al) AxY AxZ AxX Logic.eq_refl ALB) as (X' & phi & P & Y' & Z').
  cbn [component v3x v3y v3z] in X', Y', Z'. rewrite X' in X. rewrite Y' in Y. rewrite Z' in Z.
  change (F RNum) with R in *. split; [lra|].
  assert (C := cos_lip phi (side (c3_direction c) * al)). assert (S := sin_lip phi (side (c3_direction c) * al)).
  destruct (swing_W c use) as (WZ & WY). fold wy wz al in WZ, WY.
  assert (CA : cos (side (c3_direction c) * al) = cos al).
  { unfold side. destruct (c3_direction c); rewrite ?Rmult_1_l; try reflexivity.
    replace (-1 * al) with (- al) by ring. apply cos_neg. }
  assert (SA : sin (side (c3_direction c) * al) = side (c3_direction c) * sin al).
  { unfold side. destruct (c3_direction c); rewrite ?Rmult_1_l; try reflexivity.
    replace (-1 * al) with (- al) by ring. rewrite sin_neg. ring. }
  rewrite CA in C. rewrite SA in S. assert (WP := W3_pos c use). rewrite Y, Z, WE. set (W := W3 c) in *. clearbody W.
  assert (G : forall y, Rabs y <= 1 / 1000000 -> Rabs (W * s * y) <= W * Rabs s / 100000).
  { intros y Hy. rewrite !Rabs_mult, (Rabs_pos_eq W) by lra. unfold Rdiv. apply Rmult_le_compat_l; [|lra].
    apply Rmult_le_pos; [lra|apply Rabs_pos]. }
  split.
  - replace (W * (0 * cos phi - - s * sin phi) - side (c3_direction c) * (s * wy)) with (W * s * (sin phi - side (c3_direction c) * sin al)).
    + apply G. lra.
    + rewrite <- WY. ring.
  - replace (W * (0 * sin phi + - s * cos phi) + s * wz) with (- (W * s * (cos phi - cos al))).
    + rewrite Rabs_Ropp. apply G. lra.
    + rewrite <- WZ. ring.
Qed.

(** The part along the line for an inclined span. *)
Lemma hang_x : 0 <= sz -> Rabs (delta_true c) <= 2 -> forall p : R,
  Rabs (p3x (c3_Coordinate c p) - p3x (c3_CoordinateChord c p) - c3_SagAt c p * sin (delta_true c)) <= Rabs (c3_SagAt c p) / 1000000.
Proof using cur use.
  intros Hz D p. destruct (hang_form p) as (X & _ & _). set (s := c3_SagAt c p : R) in *.
  assert (V : forall (v : Vector3d RNum) (a : R), v3x (Vector3d_Rotate v PlYz a) = v3x v).
  { intros v a. unfold Vector3d_Rotate. destruct (fltb _ _); reflexivity. }
  rewrite V in X.
  assert (B : 0 <= b3 c).
  { unfold b3. fold sz. apply Rmult_le_pos; [exact Hz|]. assert (Q := wz_le c use). lra. }
  assert (E : delta3 c = @rad2deg RNum (delta_true c)).
  { unfold delta3, delta_true. rewrite (angle_first _ _ (a3_pos c use) B).
    assert (G : Vector3d_Angle (c3_spacing c) PlXz false = @rad2deg RNum (atan (sz / sx))) by exact (angle_first sx sz (use_sx c use) Hz).
    rewrite G, !rad2deg_R. fold sx sz. req. ring. }
  rewrite E in X.
  destruct (rotation_near (mkVector3d (N := RNum) (0 : R) (0 : R) (- s)) PlXz (delta_true c) AxX AxZ AxY Logic.eq_refl D) as (_ & phi & P & X' & _).
  cbn [component v3x v3y v3z] in X'. rewrite X' in X. rewrite X.
  assert (S := sin_lip phi (delta_true c)). clearbody s.
  replace (0 * cos phi - - s * sin phi - s * sin (delta_true c)) with (s * (sin phi - sin (delta_true c))) by ring.
  rewrite Rabs_mult. unfold Rdiv. apply Rmult_le_compat_l; [apply Rabs_pos|lra].
Qed.
End Hang.

Lemma w65_hangs : let c := w65 in usable3 c /\ c3_Validate c = true /\
  forall p : R, 0 < p < 1 -> 0 < c3_SagAt c p /\ c3_SagAt c p / 5 < p3x (c3_Coordinate c p) - p3x (c3_CoordinateChord c p).
Proof.
  intros c. split; [exact w65_usable|]. split; [exact w65_valid|]. intros p Hp.
  assert (P : 0 < c3_SagAt c p).
  { exact (sag_pos (c3_catenary_2d (c3_ensure w65)) (d_current w65 w65_current) (d_h_pos w65 w65_current w65_usable)
      (d_w_pos w65 w65_current w65_usable) (d_a_pos w65 w65_current w65_usable) p Hp). }
  split; [exact P|].
  assert (H := hang_x w65 w65_current w65_usable ltac:(cbn; lra) w65_delta p). rewrite w65_sin in H.
  fold c in H. set (s := c3_SagAt c p : R) in *. change (F RNum) with R in *. rewrite (Rabs_pos_eq s) in H by lra. apply Rabs_both in H. lra.
Qed.
