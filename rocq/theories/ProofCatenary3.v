(** Proofs about Catenary3d in exact real arithmetic. *)
From Coq Require Import ZArith Bool List Lia Reals Lra Psatz.
From Verif Require Import Num NumFacts ModelBase ModelCatenary SpecVector SpecCatenary SpecCatenary3
  ProofReal ProofVector HypFacts ProofCatenary.
Import ListNotations.
Open Scope R_scope.

Lemma sin_lip0 : forall x, Rabs (sin x) <= Rabs x.
Proof.
  intros x. destruct (Rle_dec 0 x) as [P|P].
  - rewrite (Rabs_pos_eq x) by assumption. destruct P as [P|<-]; [|rewrite sin_0, Rabs_R0; lra].
    apply Rabs_le. split.
    + destruct (Rle_dec x PI) as [Q|Q].
      * assert (0 <= sin x) by (apply sin_ge_0; lra). lra.
      * assert (B := SIN_bound x). assert (H := PI_K). unfold K in H. lra.
    + left. apply sin_lt_x. assumption.
  - rewrite (Rabs_left x) by lra. assert (P' : 0 < - x) by lra.
    rewrite <- (Ropp_involutive x) at 1. rewrite sin_neg, Rabs_Ropp.
    apply Rabs_le. split.
    + destruct (Rle_dec (- x) PI) as [Q|Q].
      * assert (0 <= sin (- x)) by (apply sin_ge_0; lra). lra.
      * assert (B := SIN_bound (- x)). assert (H := PI_K). unfold K in H. lra.
    + left. apply sin_lt_x. assumption.
Qed.
Lemma cos_lip : forall x y, Rabs (cos x - cos y) <= Rabs (x - y).
Proof.
  intros x y. rewrite form2. assert (S := sin_lip0 ((x - y) / 2)).
  assert (B : Rabs (sin ((x + y) / 2)) <= 1) by (apply Rabs_le, SIN_bound).
  rewrite !Rabs_mult. rewrite (Rabs_left (-2)) by lra.
  unfold Rdiv in S at 2. rewrite Rabs_mult, (Rabs_pos_eq (/ 2)) in S by lra.
  assert (0 <= Rabs (sin ((x - y) / 2))) by apply Rabs_pos. assert (0 <= Rabs (sin ((x + y) / 2))) by apply Rabs_pos.
  nra.
Qed.
Lemma sin_lip : forall x y, Rabs (sin x - sin y) <= Rabs (x - y).
Proof.
  intros x y. rewrite form4. assert (S := sin_lip0 ((x - y) / 2)).
  assert (B : Rabs (cos ((x + y) / 2)) <= 1) by (apply Rabs_le, COS_bound).
  rewrite !Rabs_mult. rewrite (Rabs_pos_eq 2) by lra.
  unfold Rdiv in S at 2. rewrite Rabs_mult, (Rabs_pos_eq (/ 2)) in S by lra.
  assert (0 <= Rabs (sin ((x - y) / 2))) by apply Rabs_pos. assert (0 <= Rabs (cos ((x + y) / 2))) by apply Rabs_pos.
  nra.
Qed.

Lemma mag3_R : forall v : Vector3d RNum, (Vector3d_Magnitude v : R) = length3 (v3x v) (v3y v) (v3z v).
Proof. intros v. unfold Vector3d_Magnitude, length3. rn. rewrite !Rpow_2. reflexivity. Qed.

(** A rotation in the x-z plane. *)
Lemma Rotate_xz : forall (v : Vector3d RNum) (a : R),
  Vector3d_Rotate v PlXz a = if Rlt_dec (Rabs a) (5 / 100000) then v
  else mkVector3d (N := RNum)
    (mag (mkVector2d (N := RNum) (v3x v) (v3z v)) * cos (arad (mkVector2d (N := RNum) (v3x v) (v3z v)) + a * (K / 180)))
    (v3y v)
    (mag (mkVector2d (N := RNum) (v3x v) (v3z v)) * sin (arad (mkVector2d (N := RNum) (v3x v) (v3z v)) + a * (K / 180))).
Proof.
  intros v a. unfold Vector3d_Rotate. cbn [Vector3d_plane]. rewrite Rotate_R. rn. rewrite flit_R.
  replace (IZR 5 * powerRZ 10 (-5)) with (5 / 100000) by (simpl; lra).
  unfold Rltb. destruct Rlt_dec; reflexivity.
Qed.

Lemma Rotate_zero : forall p (a : R), Vector3d_Rotate (mkVector3d (N := RNum) (0 : R) (0 : R) (0 : R)) p a = mkVector3d (N := RNum) (0 : R) (0 : R) (0 : R).
Proof.
  intros p a. unfold Vector3d_Rotate. destruct (fabs _ <? flit 5 (-5))%num; [reflexivity|].
  assert (Z : Vector2d_Rotate (mkVector2d (N := RNum) (0 : R) (0 : R)) a = mkVector2d (N := RNum) (0 : R) (0 : R)).
  { rewrite Rotate_R. destruct Rlt_dec; [reflexivity|]. unfold mag. cbn [v2x v2y].
    rewrite Rmult_0_l, Rplus_0_l, sqrt_0, !Rmult_0_l. reflexivity. }
  destruct p; cbn [Vector3d_plane v3x v3y v3z]; rewrite ?Z; reflexivity.
Qed.

(** ** The 2D catenary inside *)
Section Real3.
Variable c : Catenary3d RNum.
Hypothesis cur : c3_current c.
Hypothesis use : usable3 c.
Let sx : R := v3x (c3_spacing c).
Let sz : R := v3z (c3_spacing c).
Let wy : R := v3y (c3_weight c).
Let wz : R := v3z (c3_weight c).
Let d : Catenary2d RNum := c3_catenary_2d (c3_ensure c).
Definition W3 : R := sqrt (wy * wy + wz * wz).
Definition S3 : R := sqrt (sx * sx + sz * sz).
Definition b3 : R := sz * (wz / W3).
Definition a3 : R := sqrt (S3 * S3 - b3 * b3).

Lemma use_sx : 0 < sx. Proof using use. exact (proj1 use). Qed.
Lemma use_wz : 0 < wz. Proof using use. exact (proj1 (proj2 (proj2 (proj2 (proj2 use))))). Qed.
Lemma use_wy : 0 <= wy. Proof using use. exact (proj1 (proj2 (proj2 (proj2 use)))). Qed.
Lemma W3_sq : W3 * W3 = wy * wy + wz * wz.
Proof. unfold W3. apply sqrt_sqrt. nra. Qed.
Lemma W3_pos : 0 < W3.
Proof using use. apply sqrt_lt_R0. assert (P := use_wz). nra. Qed.
Lemma S3_sq : S3 * S3 = sx * sx + sz * sz.
Proof. unfold S3. apply sqrt_sqrt. nra. Qed.
Lemma S3_pos : 0 < S3.
Proof using use. apply sqrt_lt_R0. assert (P := use_sx). nra. Qed.
Lemma wz_le : 0 < wz / W3 <= 1.
Proof using use.
  assert (P := use_wz). assert (Q := W3_pos). assert (S := W3_sq). split; [apply Rdiv_lt_0_compat; assumption|].
  apply Rmult_le_reg_r with W3; [assumption|]. unfold Rdiv. rewrite Rmult_assoc, Rinv_l by lra. nra.
Qed.
Lemma b3_sq : b3 * b3 <= sz * sz.
Proof using use.
  unfold b3. assert (H := wz_le). set (r := wz / W3) in *. assert (r * r <= 1) by nra. assert (0 <= sz * sz) by nra.
  replace (sz * r * (sz * r)) with ((sz * sz) * (r * r)) by ring. nra.
Qed.
Lemma a3_sq : a3 * a3 = S3 * S3 - b3 * b3.
Proof using use. unfold a3. apply sqrt_sqrt. assert (B := b3_sq). assert (S := S3_sq). nra. Qed.
Lemma a3_pos : 0 < a3.
Proof using use. unfold a3. apply sqrt_lt_R0. assert (B := b3_sq). assert (S := S3_sq). assert (P := use_sx). nra. Qed.

Lemma magw : (Vector3d_Magnitude (c3_weight c) : R) = W3.
Proof using use.
  rewrite mag3_R. unfold length3, W3. f_equal. destruct use as (_ & _ & -> & _). fold wy wz. ring.
Qed.
Lemma mags : (Vector3d_Magnitude (c3_spacing c) : R) = S3.
Proof using use.
  rewrite mag3_R. unfold length3, S3. f_equal. destruct use as (_ & -> & _). fold sx sz. ring.
Qed.
Lemma spacing2_R : spacing_2d (c3_spacing c) (c3_weight c) = mkVector2d (N := RNum) a3 b3.
Proof using use.
  unfold spacing_2d. rewrite magw, mags. rn. fold sz wz. rewrite !Rpow_2.
  rewrite (Rabs_pos_eq wz) by (left; apply use_wz). reflexivity.
Qed.

Lemma d_current : c2_current d. Proof using cur. apply (ensure3_facts c cur). Qed.
Lemma d_spacing : c2_spacing d = mkVector2d (N := RNum) a3 b3.
Proof using cur use. unfold d. destruct (ensure3_facts c cur) as (_ & -> & _). apply spacing2_R. Qed.
Lemma d_weight : (c2_weight d : R) = W3.
Proof using cur use. unfold d. destruct (ensure3_facts c cur) as (_ & _ & -> & _). apply magw. Qed.
Lemma d_tension : c2_tension d = c3_tension_horizontal c.
Proof using cur. unfold d. destruct (ensure3_facts c cur) as (_ & _ & _ & -> & _). reflexivity. Qed.
Lemma d_h_pos : 0 < c2_tension d. Proof using cur use. rewrite d_tension. apply use. Qed.
Lemma d_w_pos : 0 < c2_weight d. Proof using cur use. rewrite d_weight. apply W3_pos. Qed.
Lemma d_a_pos : 0 < v2x (c2_spacing d). Proof using cur use. rewrite d_spacing. apply a3_pos. Qed.
Lemma e_spacing : c3_spacing (c3_ensure c) = c3_spacing c. Proof using cur. apply (ensure3_facts c cur). Qed.
Lemma e_weight : c3_weight (c3_ensure c) = c3_weight c. Proof using cur. apply (ensure3_facts c cur). Qed.
Lemma e_direction : c3_direction (c3_ensure c) = c3_direction c. Proof using cur. apply (ensure3_facts c cur). Qed.

(** x of the 2D coordinate from the left end, relative to the span *)
Definition frac3 (p : R) : R := (ct d p - (cu d - cz d)) / (2 * cz d).
Lemma frac3_x : forall p : R, ck d * ct d p - ck d * (cu d - cz d) = frac3 p * a3.
Proof using cur use.
  intros p. assert (Q := cz_pos d d_h_pos d_w_pos d_a_pos). assert (A := a_kz d d_h_pos d_w_pos).
  rewrite d_spacing in A. cbn [v2x] in A. rewrite A. unfold frac3. field. lra.
Qed.
Lemma frac3_0 : frac3 0 = 0.
Proof. unfold frac3. rewrite ct_0. unfold Rminus, Rdiv. rewrite Rplus_opp_r. ring. Qed.
Lemma frac3_1 : frac3 1 = 1.
Proof using cur use. unfold frac3. rewrite ct_1. assert (Q := cz_pos d d_h_pos d_w_pos d_a_pos). field. lra. Qed.
Lemma frac3_lt : forall p q, p < q -> frac3 p < frac3 q.
Proof using cur use.
  intros p q H. unfold frac3. assert (Q := cz_pos d d_h_pos d_w_pos d_a_pos).
  assert (L := ct_lt d d_h_pos d_w_pos d_a_pos p q H). unfold Rdiv. apply Rmult_lt_compat_r; [apply Rinv_0_lt_compat; lra|lra].
Qed.

Lemma chord2_R : forall p : R, c2_CoordinateChord d p true = mkPoint2d (N := RNum) (frac3 p * a3) (frac3 p * b3).
Proof using cur use.
  intros p. rewrite (chord_shifted_R d d_current d_h_pos d_w_pos). rewrite frac3_x, d_spacing. cbn [v2x v2y].
  f_equal. assert (A := a3_pos). req. field. lra.
Qed.
Lemma curve2_R : forall p : R, c2_Coordinate d p true =
  mkPoint2d (N := RNum) (frac3 p * a3) (frac3 p * b3 - c2_SagAt d p).
Proof using cur use.
  intros p. rewrite (coordinate_shifted_R d d_current d_h_pos d_w_pos). rewrite frac3_x. f_equal.
  rewrite (sagat_R d d_current d_h_pos d_w_pos). unfold sag_t. rewrite d_spacing. cbn [v2x v2y].
  assert (F : ck d * ((ct d p - (cu d - cz d)) * (b3 / a3)) = frac3 p * b3).
  { assert (X := frac3_x p). assert (A := a3_pos).
    transitivity ((ck d * ct d p - ck d * (cu d - cz d)) * (b3 / a3)); [ring|]. rewrite X. field. lra. }
  req. rewrite <- F. ring.
Qed.

Definition delta3 : R := Vector3d_Angle (c3_spacing c) PlXz false - Vector2d_Angle (mkVector2d (N := RNum) a3 b3) false.
Lemma chord3_R : forall p : R, c3_CoordinateChord c p =
  let v := Vector3d_Rotate (mkVector3d (N := RNum) (frac3 p * a3) (0 : R) (frac3 p * b3)) PlXz delta3 in
  mkPoint3d (v3x v) (v3y v) (v3z v).
Proof using cur use.
  intros p. unfold c3_CoordinateChord. fold d. rewrite chord2_R, e_spacing, d_spacing. cbn [p2x p2y].
  rn. fold delta3. rewrite !Rminus_0_r. reflexivity.
Qed.

Lemma chord3_fraction : forall p : R, 0 <= p ->
  let e := c3_CoordinateChord c (1 : R) in
  c3_CoordinateChord c p = mkPoint3d (N := RNum) (frac3 p * p3x e) (frac3 p * p3y e) (frac3 p * p3z e).
Proof using cur use.
  intros p Hp e. unfold e. rewrite !chord3_R, frac3_1, !Rmult_1_l. cbn [p3x p3y p3z].
  rewrite !Rotate_xz. cbn [v3x v3y v3z]. destruct Rlt_dec as [l|l]; cbn [v3x v3y v3z].
  - f_equal. ring.
  - destruct Hp as [Hp|<-].
    + assert (L := frac3_lt 0 p Hp). rewrite frac3_0 in L.
      assert (V : mkVector2d (N := RNum) (frac3 p * a3) (frac3 p * b3) = Vector2d_Scale (mkVector2d (N := RNum) a3 b3) (frac3 p)).
      { unfold Vector2d_Scale. cbn [v2x v2y]. rn. f_equal; req; ring. }
      rewrite V, arad_scale, scale_mag by (assumption || (left; cbn [v2x]; apply Rgt_not_eq, a3_pos)).
      rewrite Rabs_pos_eq by lra. f_equal; ring.
    + rewrite frac3_0. rewrite !Rmult_0_l. unfold mag. cbn [v2x v2y]. rewrite Rmult_0_l, Rplus_0_l, sqrt_0, !Rmult_0_l. reflexivity.
Qed.

Lemma mag_ab : mag (mkVector2d (N := RNum) a3 b3) = S3.
Proof using use.
  unfold mag. cbn [v2x v2y]. rewrite a3_sq. replace (S3 * S3 - b3 * b3 + b3 * b3) with (S3 * S3) by ring.
  apply sqrt_square. left. apply S3_pos.
Qed.
Lemma mag_s : mag (mkVector2d (N := RNum) sx sz) = S3. Proof. reflexivity. Qed.

(** The far end of the chord. *)
Lemma chord3_end : let e := c3_CoordinateChord c (1 : R) in
  Rabs (p3x e - sx) <= S3 / 1000000 /\ (p3y e : R) = 0 /\ Rabs (p3z e - sz) <= S3 / 1000000.
Proof using cur use.
  intros e. unfold e. rewrite chord3_R, frac3_1, !Rmult_1_l. cbn [p3x p3y p3z].
  rewrite Rotate_xz. cbn [v3x v3y v3z].
  assert (Pa := a3_pos). assert (Ps := use_sx). assert (PS := S3_pos). assert (PK := PI_K). assert (KP := K_pos).
  assert (NZa : nz (mkVector2d (N := RNum) a3 b3)) by (left; cbn; lra).
  assert (NZs : nz (mkVector2d (N := RNum) sx sz)) by (left; cbn; lra).
  destruct (arad_true _ NZs) as (t & E1 & E2 & _ & T1 & T2). rewrite mag_s in E1, E2. cbn [v2x v2y] in E1, E2.
  assert (DE : delta3 * (K / 180) = arad (mkVector2d (N := RNum) sx sz) - arad (mkVector2d (N := RNum) a3 b3)).
  { unfold delta3, arad. rewrite !deg2rad_R. unfold Vector3d_Angle. cbn [Vector3d_plane]. fold sx sz. req. ring. }
  assert (LIP : forall t', Rabs (t' - t) <= 1 / 1000000 ->
    Rabs (S3 * cos t' - S3 * cos t) <= S3 / 1000000 /\ Rabs (S3 * sin t' - S3 * sin t) <= S3 / 1000000).
  { intros t' H. rewrite <- !Rmult_minus_distr_l, !Rabs_mult, !(Rabs_pos_eq S3) by lra.
    assert (C := cos_lip t' t). assert (S := sin_lip t' t). unfold Rdiv. split; apply Rmult_le_compat_l; lra. }
  destruct Rlt_dec as [l|l]; cbn [v3x v3y v3z].
  - destruct (arad_true _ NZa) as (t' & F1 & F2 & _ & U1 & U2). rewrite mag_ab in F1, F2. cbn [v2x v2y] in F1, F2.
    assert (H : Rabs (t' - t) <= 1 / 1000000).
    { assert (A : Rabs (delta3 * (K / 180)) <= 9 / 10000000).
      { rewrite Rabs_mult, (Rabs_pos_eq (K / 180)) by lra. unfold K in *. nra. }
      rewrite DE in A. apply Rabs_both in A. apply Rabs_le. lra. }
    destruct (LIP t' H) as (L1 & L2). rewrite <- F1, <- E1 in L1. rewrite <- F2, <- E2 in L2. split; [exact L1|]. split; [reflexivity|exact L2].
  - rewrite mag_ab, DE. set (t' := arad (mkVector2d (N := RNum) sx sz)).
    replace (arad (mkVector2d (N := RNum) a3 b3) + (t' - arad (mkVector2d (N := RNum) a3 b3))) with t' by ring.
    assert (H : Rabs (t' - t) <= 1 / 1000000) by (unfold t'; apply Rabs_le; lra).
    destruct (LIP t' H) as (L1 & L2). rewrite <- E1 in L1. rewrite <- E2 in L2. split; [exact L1|]. split; [reflexivity|exact L2].
Qed.

Lemma curve3_R : forall p : R, exists v : Vector3d RNum,
  (Vector3d_Magnitude v : R) = Rabs (c3_SagAt c p) /\
  (c3_SagAt c p = (0 : R) -> v = mkVector3d (N := RNum) (0 : R) (0 : R) (0 : R)) /\
  c3_Coordinate c p = mkPoint3d (N := RNum) (p3x (c3_CoordinateChord c p) + v3x v)
    (p3y (c3_CoordinateChord c p) + v3y v) (p3z (c3_CoordinateChord c p) + v3z v).
Proof using cur use.
  intros p. unfold c3_Coordinate. fold d. rewrite chord2_R, curve2_R. cbn [p2x p2y].
  assert (Q : c3_CoordinateChord (c3_ensure c) p = c3_CoordinateChord c p).
  { unfold c3_CoordinateChord. rewrite ensure3_idem. reflexivity. }
  rewrite Q. rn. eexists. split; [|split; [|reflexivity]].
  - rewrite !turned_mag3, mag3_R. cbn [v3x v3y v3z]. unfold length3, c3_SagAt. fold d.
    rewrite <- sqrt_Rsqr_abs. f_equal. unfold Rsqr. ring.
  - intros Z. unfold c3_SagAt in Z. fold d in Z. rewrite Z.
    replace (frac3 p * a3 - frac3 p * a3) with 0 by ring. replace (frac3 p * b3 - 0 - frac3 p * b3) with 0 by ring.
    rewrite !Rotate_zero. reflexivity.
Qed.

Lemma sag3_ends : (c3_SagAt c (0 : R) : R) = 0 /\ (c3_SagAt c (1 : R) : R) = 0.
Proof using cur use. exact (sag_ends d d_current d_h_pos d_w_pos d_a_pos). Qed.
Lemma sag3_range : forall p : R, 0 <= p <= 1 -> 0 <= c3_SagAt c p.
Proof using cur use. exact (sag_range d d_current d_h_pos d_w_pos d_a_pos). Qed.

(** C64 *)
Lemma curve3_ends :
  c3_Coordinate c (0 : R) = mkPoint3d (N := RNum) (0 : R) (0 : R) (0 : R) /\
  let e := c3_Coordinate c (1 : R) in
  let s := c3_spacing c in
  let tol := length3 (v3x s) (v3y s) (v3z s) / 1000000 in
  Rabs (p3x e - v3x s) <= tol /\ (p3y e : R) = v3y s /\ Rabs (p3z e - v3z s) <= tol.
Proof using cur use.
  destruct sag3_ends as (Z0 & Z1). split.
  - destruct (curve3_R 0) as (v & _ & V & ->). rewrite (V Z0). cbn [v3x v3y v3z].
    rewrite chord3_R, frac3_0, !Rmult_0_l, Rotate_zero. cbn [p3x p3y p3z v3x v3y v3z]. rewrite !Rplus_0_l. reflexivity.
  - intros e s tol. unfold e. destruct (curve3_R 1) as (v & _ & V & ->). rewrite (V Z1). cbn [v3x v3y v3z p3x p3y p3z].
    rewrite !Rplus_0_r. assert (T : tol = S3 / 1000000).
    { unfold tol. rewrite <- mags, mag3_R. reflexivity. }
    rewrite T. destruct chord3_end as (A & B & C). unfold s. rewrite B. destruct use as (_ & -> & _). auto.
Qed.

(** C68 *)
Lemma curve3_sag : forall p : R, 0 <= p <= 1 ->
  let q := c3_Coordinate c p in let r := c3_CoordinateChord c p in
  length3 (p3x q - p3x r) (p3y q - p3y r) (p3z q - p3z r) = c3_SagAt c p.
Proof using cur use.
  intros p Hp q r. unfold q. destruct (curve3_R p) as (v & M & _ & ->). cbn [p3x p3y p3z]. fold r.
  rewrite mag3_R in M. rewrite (Rabs_pos_eq _ (sag3_range p Hp)) in M. rewrite <- M. unfold length3. f_equal. rn. ring.
Qed.

(** C67 *)
Lemma tangent3_mag : forall (p : R) dir, dir <> ADNull -> (Vector3d_Magnitude (c3_TangentVector c p dir) : R) = 1.
Proof using cur use.
  intros p dir Hd. unfold c3_TangentVector. fold d.
  assert (M : (Vector3d_Magnitude (mkVector3d (N := RNum) (v2x (c2_TangentVector d p dir)) (0 : R) (v2y (c2_TangentVector d p dir))) : R) = 1).
  { rewrite (tangentvector_R d d_current d_h_pos d_w_pos) by assumption. rewrite mag3_R. unfold length3.
    rewrite <- sqrt_1. f_equal. assert (P := cosh_pos (ct d p)). assert (Q := cosh_sinh_sq (ct d p)).
    destruct dir; [contradiction| |]; cbn [v3x v3y v3z v2x v2y];
    (transitivity ((1 + sinh (ct d p) * sinh (ct d p)) / (cosh (ct d p) * cosh (ct d p))); [field; lra|]);
    replace (1 + sinh (ct d p) * sinh (ct d p)) with (cosh (ct d p) * cosh (ct d p)) by lra; field; lra. }
  rn. repeat match goal with |- context [if ?b then _ else _] => destruct b end; rewrite ?turned_mag3; exact M.
Qed.
Lemma tension3_mag : forall (p : R) dir, dir <> ADNull ->
  (Vector3d_Magnitude (c3_TensionVector c p dir) : R) = c3_Tension c p.
Proof using cur use.
  intros p dir Hd. unfold c3_TensionVector.
  assert (Q : c3_TangentVector (c3_ensure c) p dir = c3_TangentVector c p dir).
  { unfold c3_TangentVector. rewrite ensure3_idem. reflexivity. }
  rewrite Q. assert (M := tangent3_mag p dir Hd). rewrite mag3_R in M |- *. unfold Vector3d_Scale. cbn [v3x v3y v3z]. rn.
  unfold c3_Tension. fold d.
  assert (T : 0 < c2_Tension d p).
  { assert (G := tension_ge d d_current d_h_pos d_w_pos p). assert (H := d_h_pos). lra. }
  set (v := c3_TangentVector c p dir) in *. unfold length3 in *.
  replace (v3x v * c2_Tension d p * (v3x v * c2_Tension d p) + v3y v * c2_Tension d p * (v3y v * c2_Tension d p) +
    v3z v * c2_Tension d p * (v3z v * c2_Tension d p))
    with ((v3x v * v3x v + v3y v * v3y v + v3z v * v3z v) * (c2_Tension d p * c2_Tension d p)) by rring.
  rewrite sqrt_mult by nra. rewrite M, sqrt_square by lra. req. ring.
Qed.

(** ** End forces *)
Definition s3 (p : R) : R := ck d * sinh (ct d p).
Lemma len3 : (c3_Length c : R) = s3 1 - s3 0.
Proof using cur use.
  unfold c3_Length, c2_Length. fold d. rewrite (ens d d_current), (E_length d d_h_pos d_w_pos).
  unfold s3. rewrite ct_0, ct_1. req. ring.
Qed.
Lemma len3_pos : 0 < c3_Length c.
Proof using cur use. unfold c3_Length, c2_Length. fold d. rewrite (ens d d_current). exact (E_length_pos d d_h_pos d_w_pos d_a_pos). Qed.

(** Horizontal and vertical force of the 2D catenary, in a direction. *)
Definition dsign (dir : AxisDirectionType) : R := match dir with ADNegative => -1 | _ => 1 end.
Lemma force2 : forall (p : R) dir, dir <> ADNull ->
  v2x (c2_TangentVector d p dir) * c2_Tension d p = dsign dir * c3_tension_horizontal c /\
  v2y (c2_TangentVector d p dir) * c2_Tension d p = dsign dir * (W3 * s3 p).
Proof using cur use.
  intros p dir Hd.
  rewrite (tangentvector_R d d_current d_h_pos d_w_pos) by assumption.
  rewrite (tension_R d d_current d_h_pos d_w_pos). rewrite <- d_tension, <- d_weight. unfold s3, dsign.
  assert (P := cosh_pos (ct d p)). assert (HK := h_kw d d_w_pos).
  destruct dir; [contradiction| |]; cbn [v2x v2y]; (split; [field; lra|]);
  (transitivity (sinh (ct d p) * (ck d * c2_weight d) * match ADPositive with ADNegative => -1 | _ => 1 end);
   [rewrite HK at 1; field; lra|ring]) ||
  (transitivity (- (sinh (ct d p) * (ck d * c2_weight d))); [rewrite HK at 1; field; lra|ring]).
Qed.

Lemma tensionvector3 : forall (p : R) dir, c3_TensionVector c p dir =
  Vector3d_Scale (c3_TangentVector c p dir) (c2_Tension d p).
Proof.
  intros p dir. unfold c3_TensionVector.
  assert (Q : c3_TangentVector (c3_ensure c) p dir = c3_TangentVector c p dir).
  { unfold c3_TangentVector. rewrite ensure3_idem. reflexivity. }
  rewrite Q. reflexivity.
Qed.

(** Every rotation turns by its angle up to 1e-6. *)
Lemma rotation_near : forall (v : Vector3d RNum) pl (x : R) ax1 ax2 ax3, plane_axes pl = Some (ax1, ax2, ax3) ->
  Rabs x <= 2 ->
  component (Vector3d_Rotate v pl (@rad2deg RNum x)) ax3 = component v ax3 /\
  exists phi, Rabs (phi - x) <= 1 / 1000000 /\
    turned (component v ax1) (component v ax2) phi
      (component (Vector3d_Rotate v pl (@rad2deg RNum x)) ax1) (component (Vector3d_Rotate v pl (@rad2deg RNum x)) ax2).
Proof.
  intros v pl x ax1 ax2 ax3 Hp Hx. assert (PK := PI_K). assert (KP := K_pos). assert (KV : 3 < K < 16 / 5) by (unfold K; lra).
  assert (RD : (@rad2deg RNum x : R) = x * (180 / K)) by apply rad2deg_R.
  assert (RA : Rabs (@rad2deg RNum x) = Rabs x * (180 / K)).
  { rewrite RD, Rabs_mult, (Rabs_pos_eq (180 / K)); [reflexivity|]. left. apply Rdiv_lt_0_compat; lra. }
  destruct (Rlt_dec (Rabs (@rad2deg RNum x)) (5 / 100000)) as [l|l].
  - assert (E : Vector3d_Rotate v pl (@rad2deg RNum x) = v).
    { unfold Vector3d_Rotate. rn. rewrite flit_R.
      replace (IZR 5 * powerRZ 10 (-5)) with (5 / 100000) by (simpl; lra).
      unfold Rltb. destruct Rlt_dec; [reflexivity|contradiction]. }
    rewrite E. split; [reflexivity|]. exists 0. split; [|apply turned_0].
    rewrite RA in l. assert (Rabs x * (180 / K) * K < 5 / 100000 * K) by (apply Rmult_lt_compat_r; lra).
    replace (Rabs x * (180 / K) * K) with (Rabs x * 180) in H by (field; lra).
    replace (0 - x) with (- x) by ring. rewrite Rabs_Ropp. lra.
  - destruct (Rotate3_turned v pl (@rad2deg RNum x) ax1 ax2 ax3 Hp ltac:(lra)) as (E & phi & A & T).
    split; [exact E|]. exists phi. split; [|exact T].
    unfold about_degrees in A. rewrite RA in A. rewrite RD in A.
    replace (x * (180 / K) * PI / 180) with (x + x * ((PI - K) / K)) in A by (field; lra).
    assert (B1 : Rabs x * (180 / K) / 180 <= 1).
    { replace (Rabs x * (180 / K) / 180) with (Rabs x / K) by (field; lra).
      apply Rmult_le_reg_r with K; [lra|]. unfold Rdiv. rewrite Rmult_assoc, Rinv_l; lra. }
    assert (B2 : Rabs (x * ((PI - K) / K)) <= 1 / 10000000).
    { rewrite Rabs_mult. assert (0 <= Rabs x) by apply Rabs_pos.
      assert (Z : 0 <= (PI - K) / K <= 2 / 1000000000000000).
      { split; [apply Rmult_le_pos; [lra|left; apply Rinv_0_lt_compat; lra]|].
        apply Rmult_le_reg_r with K; [lra|]. unfold Rdiv at 1. rewrite Rmult_assoc, Rinv_l by lra. lra. }
      rewrite (Rabs_pos_eq ((PI - K) / K)) by lra.
      apply Rle_trans with (2 * (2 / 1000000000000000)); [apply Rmult_le_compat; lra|lra]. }
    replace (phi - x) with ((phi - (x + x * ((PI - K) / K))) + x * ((PI - K) / K)) by ring.
    eapply Rle_trans; [apply Rabs_triang|]. lra.
Qed.

Lemma swing_R : (c3_SwingAngle c : R) = @rad2deg RNum (atan (wy / wz)).
Proof using cur. unfold c3_SwingAngle. rewrite e_weight. reflexivity. Qed.
Lemma swing_W : W3 * cos (atan (wy / wz)) = wz /\ W3 * sin (atan (wy / wz)) = wy.
Proof using use.
  destruct (atan_xy wz wy use_wz) as (A & B). unfold W3. rewrite (Rplus_comm (wy * wy)). split; symmetry; assumption.
Qed.

Lemma comb2 : forall A B t x y, 0 <= A -> 0 <= B -> Rabs (x - t) <= 1 / 1000000 -> Rabs (y - t) <= 1 / 1000000 ->
  Rabs (A * sin x + B * sin y - (A + B) * sin t) <= (A + B) / 1000000 /\
  Rabs (A * cos x + B * cos y - (A + B) * cos t) <= (A + B) / 1000000.
Proof.
  intros A B t x y HA HB Hx Hy.
  assert (S1 := sin_lip x t). assert (S2 := sin_lip y t). assert (C1 := cos_lip x t). assert (C2 := cos_lip y t).
  assert (GA : forall u, Rabs u <= 1 / 1000000 -> Rabs (A * u) <= A / 1000000)
    by (intros u Hu; rewrite Rabs_mult, (Rabs_pos_eq A) by assumption; unfold Rdiv; apply Rmult_le_compat_l; lra).
  assert (GB : forall u, Rabs u <= 1 / 1000000 -> Rabs (B * u) <= B / 1000000)
    by (intros u Hu; rewrite Rabs_mult, (Rabs_pos_eq B) by assumption; unfold Rdiv; apply Rmult_le_compat_l; lra).
  split.
  - replace (A * sin x + B * sin y - (A + B) * sin t) with (A * (sin x - sin t) + B * (sin y - sin t)) by ring.
    eapply Rle_trans; [apply Rabs_triang|]. assert (H1 := GA (sin x - sin t) ltac:(lra)). assert (H2 := GB (sin y - sin t) ltac:(lra)). lra.
  - replace (A * cos x + B * cos y - (A + B) * cos t) with (A * (cos x - cos t) + B * (cos y - cos t)) by ring.
    eapply Rle_trans; [apply Rabs_triang|]. assert (H1 := GA (cos x - cos t) ltac:(lra)). assert (H2 := GB (cos y - cos t) ltac:(lra)). lra.
Qed.

Lemma Reqb_refl : forall x, Reqb x x = true.
Proof. intros x. unfold Reqb. destruct Req_EM_T; [reflexivity|contradiction]. Qed.

(** C65: no transverse load *)
Lemma ends_no_wind : wy = 0 -> ends_carry_load c.
Proof using cur use.
  intros Hy. unfold ends_carry_load. fold wy wz. rewrite !tensionvector3.
  assert (T : forall p dir, c3_TangentVector c p dir =
    mkVector3d (N := RNum) (v2x (c2_TangentVector d p dir)) (0 : R) (v2y (c2_TangentVector d p dir))).
  { intros p dir. unfold c3_TangentVector. fold d. rewrite e_weight, e_spacing. rn. fold wy. rewrite Hy, Reqb_refl.
    cbn [negb]. rewrite andb_false_r. reflexivity. }
  rewrite !T. unfold Vector3d_Scale. cbn [v3x v3y v3z]. rn.
  destruct (force2 1 ADPositive) as (A1 & A2); [discriminate|]. destruct (force2 0 ADNegative) as (B1 & B2); [discriminate|].
  rewrite A1, A2, B1, B2. cbn [dsign].
  assert (WW : W3 = wz). { unfold W3. rewrite Hy. replace (0 * 0 + wz * wz) with (wz * wz) by ring. apply sqrt_square. left. apply use_wz. }
  assert (L := len3). assert (LP := len3_pos).
  assert (TOL : 0 <= length3 0 wy wz * c3_Length c / 1000000).
  { apply Rmult_le_pos; [|lra]. apply Rmult_le_pos; [apply sqrt_pos|lra]. }
  rewrite Hy in TOL |- *. rewrite WW, L in *.
  repeat split; match goal with |- Rabs ?x <= _ => replace x with 0 by ring end; rewrite Rabs_R0; exact TOL.
Qed.

(** C65: level span *)
Lemma ends_level : sz = 0 -> ends_carry_load c.
Proof using cur use.
  intros Hz. destruct (Req_dec wy 0) as [Hy|Hy]; [apply ends_no_wind, Hy|].
  unfold ends_carry_load. fold wy wz. rewrite !tensionvector3.
  set (al := atan (wy / wz)). set (sg := side (c3_direction c)).
  assert (ALB : Rabs (sg * al) <= 2).
  { assert (B := atan_bound (wy / wz)). fold al in B. assert (PK := PI_K). unfold K in PK.
    rewrite Rabs_mult. assert (Rabs al <= 2) by (apply Rabs_le; lra).
    assert (SG : Rabs sg = 1) by (unfold sg, side; destruct (c3_direction c); unfold Rabs; destruct Rcase_abs; lra). rewrite SG. lra. }
  assert (T : forall p dir, c3_TangentVector c p dir =
    Vector3d_Rotate (mkVector3d (N := RNum) (v2x (c2_TangentVector d p dir)) (0 : R) (v2y (c2_TangentVector d p dir)))
      PlYz (@rad2deg RNum (sg * al))).
  { intros p dir. unfold c3_TangentVector. fold d. rewrite e_weight, e_spacing, e_direction. rn. fold wy sz.
    rewrite Hz, Reqb_refl. cbn [negb andb].
    assert (N0 : Reqb wy 0 = false) by (unfold Reqb; destruct Req_EM_T; [contradiction|reflexivity]).
    rewrite N0. cbn [negb].
    assert (SW : c3_SwingAngle (c3_ensure c) = @rad2deg RNum al).
    { unfold c3_SwingAngle. rewrite ensure3_idem. exact swing_R. }
    rewrite SW. f_equal. rewrite !rad2deg_R. unfold sg, side. destruct (c3_direction c); rn; req; ring. }
  rewrite !T. unfold Vector3d_Scale. cbn [v3x v3y v3z]. rn.
  destruct (force2 1 ADPositive) as (A1 & A2); [discriminate|]. destruct (force2 0 ADNegative) as (B1 & B2); [discriminate|].
  cbn [dsign] in A1, A2, B1, B2.
  destruct (rotation_near (mkVector3d (N := RNum) (v2x (c2_TangentVector d (1 : R) ADPositive)) (0 : R) (v2y (c2_TangentVector d (1 : R) ADPositive)))
    PlYz (sg * al) AxY AxZ AxX Logic.eq_refl ALB) as (X1 & ph1 & P1 & Y1 & Z1).
  destruct (rotation_near (mkVector3d (N := RNum) (v2x (c2_TangentVector d (0 : R) ADNegative)) (0 : R) (v2y (c2_TangentVector d (0 : R) ADNegative)))
    PlYz (sg * al) AxY AxZ AxX Logic.eq_refl ALB) as (X0 & ph0 & P0 & Y0 & Z0).
  cbn [component v3x v3y v3z] in X1, Y1, Z1, X0, Y0, Z0. rewrite X1, Y1, Z1, X0, Y0, Z0.
  set (n1 := (v2x (c2_TangentVector d 1 ADPositive) : R)) in *. set (m1 := (v2y (c2_TangentVector d 1 ADPositive) : R)) in *.
  set (n0 := (v2x (c2_TangentVector d 0 ADNegative) : R)) in *. set (m0 := (v2y (c2_TangentVector d 0 ADNegative) : R)) in *.
  set (T1 := (c2_Tension d 1 : R)) in *. set (T0 := (c2_Tension d 0 : R)) in *.
  (* both ends carry part of the load *)
  assert (U0 : cu d = 0).
  { apply sinh_inj. rewrite sinh_0. assert (B := b_kz d d_h_pos d_w_pos d_a_pos). rewrite d_spacing in B. cbn [v2y] in B.
    unfold b3 in B. rewrite Hz in B. rewrite Rmult_0_l in B.
    assert (Pk := ck_pos d d_h_pos d_w_pos). assert (Pz := sinh_pos _ (cz_pos d d_h_pos d_w_pos d_a_pos)).
    apply Rmult_eq_reg_r with (2 * ck d * sinh (cz d)); [|apply Rgt_not_eq; apply Rmult_lt_0_compat; lra]. lra. }
  assert (Pk := ck_pos d d_h_pos d_w_pos). assert (Pz := sinh_pos _ (cz_pos d d_h_pos d_w_pos d_a_pos)). assert (PW := W3_pos).
  assert (S1 : 0 <= W3 * s3 1).
  { unfold s3. rewrite ct_1, U0, Rplus_0_l. apply Rmult_le_pos; [lra|]. apply Rmult_le_pos; lra. }
  assert (S0 : 0 <= - (W3 * s3 0)).
  { unfold s3. rewrite ct_0, U0. replace (0 - cz d) with (- cz d) by ring. rewrite sinh_neg.
    replace (- (W3 * (ck d * - sinh (cz d)))) with (W3 * (ck d * sinh (cz d))) by ring.
    apply Rmult_le_pos; [lra|]. apply Rmult_le_pos; lra. }
  assert (L := len3).
  assert (AB : W3 * s3 1 + - (W3 * s3 0) = W3 * c3_Length c) by (rewrite L; ring).
  destruct (comb2 _ _ (sg * al) ph1 ph0 S1 S0 P1 P0) as (CS & CC). rewrite AB in CS, CC.
  destruct swing_W as (W1 & W2). fold al in W1, W2.
  assert (SS : W3 * sin (sg * al) = sg * wy).
  { unfold sg, side. destruct (c3_direction c); rewrite ?Rmult_1_l; try assumption.
    replace (-1 * al) with (- al) by ring. rewrite sin_neg. lra. }
  assert (SC : W3 * cos (sg * al) = wz).
  { unfold sg, side. destruct (c3_direction c); rewrite ?Rmult_1_l; try assumption.
    replace (-1 * al) with (- al) by ring. rewrite cos_neg. lra. }
  assert (TL : length3 0 wy wz = W3) by (unfold length3, W3; f_equal; ring). rewrite TL.
  split; [|split].
  - replace (n1 * T1 + n0 * T0) with 0 by (change (0 = n1 * T1 + n0 * T0); rewrite A1, B1; ring).
    rewrite Rabs_R0. assert (LP := len3_pos). apply Rmult_le_pos; [|lra]. apply Rmult_le_pos; lra.
  - rewrite <- Rabs_Ropp. match goal with |- Rabs ?x <= _ => replace x with
      (W3 * s3 1 * sin ph1 + - (W3 * s3 0) * sin ph0 - W3 * c3_Length c * sin (sg * al)) end; [exact CS|].
    transitivity ((m1 * T1) * sin ph1 + (m0 * T0) * sin ph0 - (W3 * sin (sg * al)) * c3_Length c);
      [rewrite A2, B2; ring|]. rewrite SS. ring.
  - match goal with |- Rabs ?x <= _ => replace x with
      (W3 * s3 1 * cos ph1 + - (W3 * s3 0) * cos ph0 - W3 * c3_Length c * cos (sg * al)) end; [exact CC|].
    transitivity ((m1 * T1) * cos ph1 + (m0 * T0) * cos ph0 - (W3 * cos (sg * al)) * c3_Length c);
      [rewrite A2, B2; ring|]. rewrite SC. ring.
Qed.

(** The component along x for an inclined span with transverse load *)
Definition delta_true : R := atan (sz / sx) - atan (b3 / a3).
Lemma ends_x : sz <> 0 -> wy <> 0 -> Rabs delta_true <= 2 ->
  Rabs (v3x (c3_TensionVector c (1 : R) ADPositive) + v3x (c3_TensionVector c (0 : R) ADNegative)
        + W3 * c3_Length c * sin delta_true)
  <= (2 * c3_tension_horizontal c + W3 * Rabs (s3 1) + W3 * Rabs (s3 0)) / 1000000.
Proof using cur use.
  intros Hz Hy HD. rewrite !tensionvector3. unfold Vector3d_Scale. cbn [v3x]. rn.
  assert (Ang : (Vector3d_Angle (c3_spacing c) PlXz true - Vector2d_Angle (c2_spacing d) true : R) = @rad2deg RNum delta_true).
  { rewrite d_spacing. unfold Vector3d_Angle. cbn [Vector3d_plane]. fold sx sz.
    assert (G1 := angle_atan sx sz use_sx). assert (G2 := angle_atan a3 b3 a3_pos).
    assert (KP := K_pos). rewrite rad2deg_R. unfold delta_true. rewrite <- G1, <- G2, !deg2rad_R. req. field. lra. }
  assert (T : forall p dir, (v3x (c3_TangentVector c p dir) : R) =
    v3x (Vector3d_Rotate (mkVector3d (N := RNum) (v2x (c2_TangentVector d p dir)) (0 : R) (v2y (c2_TangentVector d p dir)))
      PlXz (@rad2deg RNum delta_true))).
  { intros p dir. unfold c3_TangentVector. fold d. rewrite e_weight, e_spacing, e_direction. rn. fold wy sz.
    assert (N0 : Reqb wy 0 = false) by (unfold Reqb; destruct Req_EM_T; [contradiction|reflexivity]).
    assert (N1 : Reqb sz 0 = false) by (unfold Reqb; destruct Req_EM_T; [contradiction|reflexivity]).
    rewrite N0, N1. cbn [negb andb]. rewrite Ang.
    assert (X : forall (v : Vector3d RNum) (a : R), v3x (Vector3d_Rotate v PlYz a) = v3x v).
    { intros v a. unfold Vector3d_Rotate. destruct (fltb _ _); reflexivity. }
    rewrite X. reflexivity. }
  rewrite !T.
  destruct (force2 1 ADPositive) as (A1 & A2); [discriminate|]. destruct (force2 0 ADNegative) as (B1 & B2); [discriminate|].
  cbn [dsign] in A1, A2, B1, B2.
  destruct (rotation_near (mkVector3d (N := RNum) (v2x (c2_TangentVector d (1 : R) ADPositive)) (0 : R) (v2y (c2_TangentVector d (1 : R) ADPositive)))
    PlXz delta_true AxX AxZ AxY Logic.eq_refl HD) as (_ & ph1 & P1 & X1 & _).
  destruct (rotation_near (mkVector3d (N := RNum) (v2x (c2_TangentVector d (0 : R) ADNegative)) (0 : R) (v2y (c2_TangentVector d (0 : R) ADNegative)))
    PlXz delta_true AxX AxZ AxY Logic.eq_refl HD) as (_ & ph0 & P0 & X0 & _).
  cbn [component v3x v3y v3z] in X1, X0. rewrite X1, X0.
  set (n1 := (v2x (c2_TangentVector d 1 ADPositive) : R)) in *. set (m1 := (v2y (c2_TangentVector d 1 ADPositive) : R)) in *.
  set (n0 := (v2x (c2_TangentVector d 0 ADNegative) : R)) in *. set (m0 := (v2y (c2_TangentVector d 0 ADNegative) : R)) in *.
  set (T1 := (c2_Tension d 1 : R)) in *. set (T0 := (c2_Tension d 0 : R)) in *.
  set (h := (c3_tension_horizontal c : R)) in *. assert (Ph : 0 < h) by apply use. assert (PW := W3_pos).
  rewrite len3. set (dl := delta_true) in *.
  match goal with |- Rabs ?x <= _ => replace x with
    (h * (cos ph1 - cos dl) - h * (cos ph0 - cos dl) - W3 * s3 1 * (sin ph1 - sin dl) + W3 * s3 0 * (sin ph0 - sin dl)) end.
  2:{ transitivity ((n1 * T1) * cos ph1 - (m1 * T1) * sin ph1 + ((n0 * T0) * cos ph0 - (m0 * T0) * sin ph0) + W3 * (s3 1 - s3 0) * sin dl);
      [rewrite A1, A2, B1, B2; ring|ring]. }
  assert (C1 := cos_lip ph1 dl). assert (C0 := cos_lip ph0 dl). assert (S1 := sin_lip ph1 dl). assert (S0 := sin_lip ph0 dl).
  assert (G : forall x y, Rabs y <= 1 / 1000000 -> Rabs (x * y) <= Rabs x / 1000000).
  { intros x y H. rewrite Rabs_mult. unfold Rdiv. apply Rmult_le_compat_l; [apply Rabs_pos|lra]. }
  assert (G1 := G h (cos ph1 - cos dl) ltac:(lra)). assert (G2 := G h (cos ph0 - cos dl) ltac:(lra)).
  assert (G3 := G (W3 * s3 1) (sin ph1 - sin dl) ltac:(lra)). assert (G4 := G (W3 * s3 0) (sin ph0 - sin dl) ltac:(lra)).
  rewrite (Rabs_mult W3 (s3 1)) in G3. rewrite (Rabs_mult W3 (s3 0)) in G4. rewrite (Rabs_pos_eq W3) in G3, G4 by lra. rewrite (Rabs_pos_eq h) in G1, G2 by lra.
  apply Rabs_both in G1. apply Rabs_both in G2. apply Rabs_both in G3. apply Rabs_both in G4. apply Rabs_le. lra.
Qed.
End Real3.

Lemma run3_usable : forall ks, c3_current (c3_run (@Catenary3d_default RNum) ks).
Proof. intros ks. apply run3_current, default3_current. Qed.

(** ** The witness against C65 *)
Definition w65_calls : list (C3Call RNum) :=
  [ C3SetSpacing (mkVector3d (N := RNum) (800 : R) (0 : R) (1000 : R)); C3SetWeight (mkVector3d (N := RNum) (0 : R) (3 : R) (4 : R));
    C3SetTension (N := RNum) (5000 : R) ].
Definition w65 : Catenary3d RNum := c3_run Catenary3d_default w65_calls.

Lemma w65_usable : usable3 w65.
Proof. unfold usable3. cbn. lra. Qed.
Lemma w65_current : c3_current w65. Proof. apply run3_usable. Qed.
Lemma w65_W : W3 w65 = 5.
Proof. unfold W3. cbn. replace (3 * 3 + 4 * 4) with (5 * 5) by ring. apply sqrt_square. lra. Qed.
Lemma w65_b : b3 w65 = 800.
Proof. unfold b3. rewrite w65_W. cbn. lra. Qed.
Lemma w65_S : S3 w65 * S3 w65 = 1640000.
Proof. rewrite S3_sq. cbn. lra. Qed.
Lemma w65_a : a3 w65 = 1000.
Proof.
  unfold a3. rewrite w65_S, w65_b. replace (1640000 - 800 * 800) with (1000 * 1000) by ring. apply sqrt_square. lra.
Qed.

Lemma w65_sin : sin (delta_true w65) = 360000 / 1640000.
Proof.
  unfold delta_true. rewrite w65_a, w65_b. cbn [v3x v3z w65 w65_calls c3_run fold_left c3_call c3_set_tension c3_set_weight c3_set_spacing c3_spacing].
  rewrite sin_minus.
  destruct (atan_xy 800 1000 ltac:(lra)) as (A1 & A2). destruct (atan_xy 1000 800 ltac:(lra)) as (B1 & B2).
  replace (1000 * 1000 + 800 * 800) with (800 * 800 + 1000 * 1000) in B1, B2 by ring.
  set (m := sqrt (800 * 800 + 1000 * 1000)) in *.
  assert (M : m * m = 1640000) by (unfold m; rewrite sqrt_sqrt; lra).
  apply Rmult_eq_reg_l with 1640000; [|lra].
  transitivity ((m * sin (atan (1000 / 800))) * (m * cos (atan (800 / 1000))) - (m * cos (atan (1000 / 800))) * (m * sin (atan (800 / 1000)))).
  - rewrite <- M. ring.
  - rewrite <- A1, <- A2, <- B1, <- B2. lra.
Qed.
Lemma w65_delta : Rabs (delta_true w65) <= 2.
Proof.
  unfold delta_true. rewrite w65_a, w65_b. cbn [v3x v3z w65 w65_calls c3_run fold_left c3_call c3_set_tension c3_set_weight c3_set_spacing c3_spacing].
  assert (P1 : 0 < atan (1000 / 800)) by (rewrite <- atan_0; apply atan_increasing; lra).
  assert (P2 : 0 < atan (800 / 1000)) by (rewrite <- atan_0; apply atan_increasing; lra).
  assert (B1 := atan_bound (1000 / 800)). assert (B2 := atan_bound (800 / 1000)). assert (PK := PI_K). unfold K in PK.
  apply Rabs_le. lra.
Qed.

Lemma sinh_2 : forall x, Rabs x <= 2 -> Rabs (sinh x) <= 5.
Proof.
  assert (E1 : exp 1 <= 3) by exact exp_le_3. assert (P1 := exp_pos 1).
  assert (E2 : exp 2 <= 9). { replace 2 with (1 + 1) by ring. rewrite exp_plus. nra. }
  assert (H : forall x, x <= 2 -> sinh x <= 5).
  { intros x Hx. unfold sinh. assert (exp x <= exp 2).
    { destruct Hx as [Hx| ->]; [left; apply exp_increasing; assumption|right; reflexivity]. }
    assert (P := exp_pos (- x)). lra. }
  intros x Hx. apply Rabs_both in Hx. apply Rabs_le. split.
  - assert (Q := H (- x) ltac:(lra)). rewrite sinh_neg in Q. lra.
  - apply H. lra.
Qed.

Lemma w65_s : Rabs (s3 w65 0) <= 5000 /\ Rabs (s3 w65 1) <= 5000.
Proof.
  set (d := c3_catenary_2d (c3_ensure w65)).
  assert (Hh := d_h_pos w65 w65_current w65_usable). assert (Hw := d_w_pos w65 w65_current w65_usable).
  assert (Ha := d_a_pos w65 w65_current w65_usable). fold d in Hh, Hw, Ha.
  assert (CK : ck d = 1000).
  { unfold ck. unfold d. rewrite (d_tension w65 w65_current), (d_weight w65 w65_current w65_usable), w65_W. cbn. lra. }
  assert (DS := d_spacing w65 w65_current w65_usable). fold d in DS. rewrite w65_a, w65_b in DS.
  assert (CZ : cz d = 1 / 2). { unfold cz. rewrite CK, DS. cbn [v2x]. lra. }
  assert (CU : 0 <= cu d <= 1).
  { assert (SU := sinh_cu d Hh Hw Ha). rewrite DS, CK, CZ in SU. cbn [v2y] in SU.
    assert (G := sinh_gt (1 / 2) ltac:(lra)).
    assert (Q : 0 < sinh (cu d) <= 1).
    { rewrite SU. split; [apply Rdiv_lt_0_compat; nra|].
      apply Rmult_le_reg_r with (2 * 1000 * sinh (1 / 2)); [nra|]. unfold Rdiv. rewrite Rmult_assoc, Rinv_l by nra. lra. }
    split.
    - left. apply sinh_lt_inv. rewrite sinh_0. lra.
    - left. apply sinh_lt_inv. assert (G1 := sinh_gt 1 ltac:(lra)). lra. }
  unfold s3. fold d. rewrite ct_0, ct_1, CK, CZ.
  assert (A := sinh_2 (cu d - 1 / 2) ltac:(apply Rabs_le; lra)). assert (B := sinh_2 (cu d + 1 / 2) ltac:(apply Rabs_le; lra)).
  split; rewrite Rabs_mult, (Rabs_pos_eq 1000) by lra; lra.
Qed.

Lemma w65_length : 1000 <= c3_Length w65.
Proof.
  set (d := c3_catenary_2d (c3_ensure w65)).
  assert (L := length_facts d (d_current w65 w65_current) (d_h_pos w65 w65_current w65_usable)
    (d_w_pos w65 w65_current w65_usable) (d_a_pos w65 w65_current w65_usable)).
  destruct L as (_ & _ & L & _). unfold c3_Length. fold d.
  assert (DS := d_spacing w65 w65_current w65_usable). fold d in DS. rewrite w65_a, w65_b in DS. rewrite DS in L. cbn [v2x v2y] in L.
  assert (M : sqrt (1000 * 1000) <= sqrt (1000 * 1000 + 800 * 800)) by (apply sqrt_le_1_alt; lra).
  rewrite sqrt_square in M by lra. lra.
Qed.

Lemma w65_valid : c3_Validate w65 = true.
Proof.
  unfold c3_Validate.
  assert (I : c3_inputs_valid w65 = true).
  { unfold c3_inputs_valid. cbn [w65 w65_calls c3_run fold_left c3_call c3_set_tension c3_set_weight c3_set_spacing c3_spacing c3_weight v3x v3y v3z].
    rn. unfold Rleb, Rltb, Reqb.
    repeat first [ destruct Rle_dec; try lra | destruct Rlt_dec; try lra | destruct Req_EM_T; try lra ]; try reflexivity.
    all: exfalso; repeat match goal with H : context [Rabs 1000] |- _ => rewrite (Rabs_pos_eq 1000) in H by lra end; lra. }
  rewrite I. unfold c2_Validate, c2_ValidateCurveAndSpacing, c2_Constant, c2_ConstantMinimum.
  rewrite (d_spacing w65 w65_current w65_usable), (d_tension w65 w65_current), (d_weight w65 w65_current w65_usable).
  rewrite mag_R, (mag_ab w65 w65_usable), w65_a, w65_b, w65_W. cbn [v2x v2y].
  assert (TE : (c3_tension_horizontal w65 : R) = 5000) by reflexivity. rewrite TE.
  rn. rewrite (Rabs_pos_eq 800) by lra.
  assert (SB : S3 w65 <= 1300).
  { assert (Q := w65_S). assert (P := S3_pos w65 w65_usable). nra. }
  unfold Rleb, Rltb.
  repeat first [ destruct Rle_dec; try lra | destruct Rlt_dec; try lra ]. all: try reflexivity.
Qed.

Lemma w65_unbalanced :
  W3 w65 * c3_Length w65 / 5 <=
  Rabs (v3x (c3_TensionVector w65 (1 : R) ADPositive) + v3x (c3_TensionVector w65 (0 : R) ADNegative)).
Proof.
  assert (E := ends_x w65 w65_current w65_usable).
  assert (H1 : (v3z (c3_spacing w65) : R) <> 0) by (cbn; lra). assert (H2 : (v3y (c3_weight w65) : R) <> 0) by (cbn; lra).
  specialize (E H1 H2 w65_delta). rewrite w65_sin, w65_W in E.
  assert (TE : (c3_tension_horizontal w65 : R) = 5000) by reflexivity. rewrite TE in E.
  destruct w65_s as (S0 & S1). assert (L := w65_length). rewrite w65_W.
  set (X := v3x (c3_TensionVector w65 (1 : R) ADPositive) + v3x (c3_TensionVector w65 (0 : R) ADNegative)) in *.
  set (len := (c3_Length w65 : R)) in *.
  assert (E' : Rabs (X + 5 * len * (360000 / 1640000)) <= 1) by (eapply Rle_trans; [exact E|]; lra).
  apply Rabs_both in E'. rewrite Rabs_left; lra.
Qed.

Lemma w65_refutes : ~ ends_carry_load w65.
Proof.
  intros (H & _). assert (U := w65_unbalanced). assert (L := w65_length).
  assert (TL : length3 0 (v3y (c3_weight w65)) (v3z (c3_weight w65)) = W3 w65)
    by (unfold length3, W3; f_equal; ring).
  rewrite TL, w65_W in *. lra.
Qed.

Lemma w65_facts : let c := w65 in
  usable3 c /\ c3_Validate c = true /\ ~ ends_carry_load c /\
  length3 0 (v3y (c3_weight c)) (v3z (c3_weight c)) * c3_Length c / 5 <=
    Rabs (v3x (c3_TensionVector c (1 : R) ADPositive) + v3x (c3_TensionVector c (0 : R) ADNegative)).
Proof.
  split; [exact w65_usable|]. split; [exact w65_valid|]. split; [exact w65_refutes|].
  assert (TL : length3 0 (v3y (c3_weight w65)) (v3z (c3_weight w65)) = W3 w65)
    by (unfold length3, W3; f_equal; ring).
  rewrite TL. exact w65_unbalanced.
Qed.

Lemma ends_partial : forall c, c3_current c -> usable3 c ->
  ((v3z (c3_spacing c) : R) = 0 \/ (v3y (c3_weight c) : R) = 0) -> ends_carry_load c.
Proof. intros c I U [H|H]; [apply ends_level|apply ends_no_wind]; assumption. Qed.

Lemma sag3_facts : forall c, c3_current c -> usable3 c ->
  (forall p : R, 0 <= p <= 1 ->
    let q := c3_Coordinate c p in let r := c3_CoordinateChord c p in
    length3 (p3x q - p3x r) (p3y q - p3y r) (p3z q - p3z r) = c3_SagAt c p /\ 0 <= c3_SagAt c p) /\
  (exists f : R -> R, f 0 = 0 /\ f 1 = 1 /\ (forall p q, p < q -> f p < f q) /\
    let e := c3_Coordinate c (1 : R) in
    forall p : R, 0 <= p ->
      c3_CoordinateChord c p = mkPoint3d (N := RNum) (f p * p3x e) (f p * p3y e) (f p * p3z e)).
Proof.
  intros c I U. split.
  - intros p Hp q r. split; [apply (curve3_sag c I U p Hp)|apply (sag3_range c I U p Hp)].
  - exists (frac3 c). split; [apply frac3_0|]. split; [apply (frac3_1 c I U)|]. split; [apply (frac3_lt c I U)|].
    intros e p Hp. unfold e. destruct (curve3_R c I U 1) as (v & _ & V & E). rewrite E.
    rewrite (V (proj2 (sag3_ends c I U))). cbn [p3x p3y p3z v3x v3y v3z]. rewrite !Rplus_0_r.
    apply (chord3_fraction c I U p Hp).
Qed.
