(** Proofs on similar catenaries in three dimensions. *)
From Coq Require Import ZArith Bool List Reals Lra Lia.
From Verif Require Import Num NumFacts ModelBase ModelCatenary SpecCatenary SpecCatenary3 SpecScale SpecScale3
  ProofReal ProofVector HypFacts ProofCatenary ProofCatenary3 ProofScale.
Open Scope R_scope.

(** ** Vectors *)
Lemma angle_multiple : forall (x y k : R) neg, 0 < k ->
  Vector2d_Angle (mkVector2d (N := RNum) (k * x) (k * y)) neg = Vector2d_Angle (mkVector2d (N := RNum) x y) neg.
Proof.
  intros x y k neg Hk. unfold Vector2d_Angle. cbn [v2x v2y]. rn.
  assert (E : forall a, Reqb (k * a) 0 = Reqb a 0).
  { intros a. destruct (Reqb a 0) eqn:B; rbool.
    - subst a. rewrite Rmult_0_r. apply Reqb_refl.
    - destruct (Reqb (k * a) 0) eqn:D; rbool; [|reflexivity]. exfalso. apply B. nra. }
  assert (L : forall a, Rltb 0 (k * a) = Rltb 0 a).
  { intros a. destruct (Rltb 0 a) eqn:B; destruct (Rltb 0 (k * a)) eqn:D; rbool; try reflexivity; exfalso; nra. }
  assert (L' : forall a, Rltb (k * a) 0 = Rltb a 0).
  { intros a. destruct (Rltb a 0) eqn:B; destruct (Rltb (k * a) 0) eqn:D; rbool; try reflexivity; exfalso; nra. }
  assert (M : forall a, Rleb 0 (k * a) = Rleb 0 a).
  { intros a. destruct (Rleb 0 a) eqn:B; destruct (Rleb 0 (k * a)) eqn:D; rbool; try reflexivity; exfalso; nra. }
  assert (M' : forall a, Rleb (k * a) 0 = Rleb a 0).
  { intros a. destruct (Rleb a 0) eqn:B; destruct (Rleb (k * a) 0) eqn:D; rbool; try reflexivity; exfalso; nra. }
  rewrite !E, !L, !L', !M, !M'. destruct (Reqb x 0) eqn:X; [reflexivity|]. rbool.
  replace (k * y / (k * x)) with (y / x) by (field; lra). reflexivity.
Qed.

Definition mul3 (k : R) (v : Vector3d RNum) : Vector3d RNum := mkVector3d (N := RNum) (k * v3x v) (k * v3y v) (k * v3z v).
Lemma multiple_mul : forall k v w, multiple3 k v w -> w = mul3 k v.
Proof. intros k v [x y z] (A & B & C). cbn in A, B, C. unfold mul3. subst. reflexivity. Qed.
Lemma angle3_multiple : forall (v : Vector3d RNum) (k : R) pl neg, 0 < k ->
  Vector3d_Angle (mul3 k v) pl neg = Vector3d_Angle v pl neg.
Proof.
  intros v k pl neg Hk. unfold Vector3d_Angle, mul3. destruct pl; cbn [Vector3d_plane v3x v3y v3z];
    try apply angle_multiple; try assumption. reflexivity.
Qed.
Lemma rotate_multiple : forall (x y k a : R), 0 < k ->
  Vector2d_Rotate (mkVector2d (N := RNum) (k * x) (k * y)) a =
  mkVector2d (N := RNum) (k * v2x (Vector2d_Rotate (mkVector2d (N := RNum) x y) a))
                         (k * v2y (Vector2d_Rotate (mkVector2d (N := RNum) x y) a)).
Proof.
  intros x y k a Hk. unfold Vector2d_Rotate. rewrite angle_multiple by assumption. rewrite !mag_R.
  destruct (_ <? _)%num; [reflexivity|]. cbn [v2x v2y].
  assert (Q : mag (mkVector2d (N := RNum) (k * x) (k * y)) = k * mag (mkVector2d (N := RNum) x y)).
  { unfold mag. cbn [v2x v2y]. transitivity (sqrt (k * k) * sqrt (x * x + y * y)).
    - rewrite <- sqrt_mult_alt by nra. f_equal. ring.
    - rewrite sqrt_square by lra. reflexivity. }
  rewrite Q. rn. f_equal; req; ring.
Qed.
Lemma rotate3_multiple : forall (v : Vector3d RNum) (k a : R) pl, 0 < k ->
  Vector3d_Rotate (mul3 k v) pl a = mul3 k (Vector3d_Rotate v pl a).
Proof.
  intros v k a pl Hk. unfold Vector3d_Rotate. destruct (_ <? _)%num; [reflexivity|].
  unfold mul3 at 1. destruct pl; cbn [Vector3d_plane v3x v3y v3z];
    rewrite ?rotate_multiple by assumption; try (destruct (Vector2d_Rotate _ _); reflexivity). reflexivity.
Qed.
Lemma mag3_multiple : forall (v : Vector3d RNum) (k : R), 0 < k ->
  (Vector3d_Magnitude (mul3 k v) : R) = k * Vector3d_Magnitude v.
Proof.
  intros v k Hk. rewrite !mag3_R. unfold length3, mul3. cbn [v3x v3y v3z].
  transitivity (sqrt (k * k) * sqrt (v3x v * v3x v + v3y v * v3y v + v3z v * v3z v)).
  - rewrite <- sqrt_mult_alt by nra. f_equal. req. ring.
  - rewrite sqrt_square by lra. reflexivity.
Qed.
Lemma eq0_multiple : forall (a k : R), 0 < k -> Reqb (k * a) 0 = Reqb a 0.
Proof.
  intros a k Hk. destruct (Reqb a 0) eqn:B; rbool.
  - subst a. rewrite Rmult_0_r. apply Reqb_refl.
  - destruct (Reqb (k * a) 0) eqn:D; rbool; [|reflexivity]. exfalso. apply B. nra.
Qed.

(** ** Similar catenaries *)
Lemma ensure_twice : forall b : Catenary3d RNum, c3_current b -> c3_ensure (c3_ensure b) = c3_ensure b.
Proof.
  intros b B. destruct (ensure3_facts b B) as (E & _). set (x := c3_ensure b) in *. unfold c3_ensure. rewrite E. reflexivity.
Qed.
Section Similar3.
Variables c c' : Catenary3d RNum.
Variables l m : R.
Hypothesis C : c3_current c.
Hypothesis C' : c3_current c'.
Hypothesis U : usable3 c.
Hypothesis U' : usable3 c'.
Hypothesis Hl : 0 < l.
Hypothesis Hm : 0 < m.
Hypothesis S : similar3 l m c c'.
Let e := c3_ensure c.
Let e' := c3_ensure c'.
Let d := c3_catenary_2d e.
Let d' := c3_catenary_2d e'.

Lemma Hml : 0 < m / l. Proof using Hl Hm. apply Rdiv_lt_0_compat; assumption. Qed.
Lemma t_spacing : c3_spacing c' = mul3 l (c3_spacing c).
Proof using S. apply multiple_mul, (sim3_spacing _ _ _ _ S). Qed.
Lemma t_weight : c3_weight c' = mul3 (m / l) (c3_weight c).
Proof using S. apply multiple_mul, (sim3_weight _ _ _ _ S). Qed.
Lemma gd : good d.
Proof using C U. repeat split; [apply d_current|apply d_h_pos|apply d_w_pos|apply d_a_pos]; assumption. Qed.
Lemma gd' : good d'.
Proof using C' U'. repeat split; [apply d_current|apply d_h_pos|apply d_w_pos|apply d_a_pos]; assumption. Qed.

Lemma t_spacing2 : spacing_2d (c3_spacing c') (c3_weight c') =
  mkVector2d (N := RNum) (l * v2x (spacing_2d (c3_spacing c) (c3_weight c)))
                         (l * v2y (spacing_2d (c3_spacing c) (c3_weight c))).
Proof using Hl Hm S U.
  assert (P := Hml). assert (W := W3_pos c U). rewrite <- (magw c U) in W.
  unfold spacing_2d. rewrite t_spacing, t_weight, !mag3_multiple by assumption.
  generalize dependent (Vector3d_Magnitude (c3_weight c) : R). intros w W.
  generalize (Vector3d_Magnitude (c3_spacing c) : R). intros s.
  unfold mul3. cbn [v3x v3y v3z v2x v2y]. rn. rewrite !Rpow_2.
  rewrite Rabs_mult, (Rabs_pos_eq (m / l)) by lra.
  generalize (Rabs (v3z (c3_weight c))). intros v. generalize (v3z (c3_spacing c) : R). intros b.
  assert (E : l * b * (m / l * v / (m / l * w)) = l * (b * (v / w))) by (field; repeat split; lra).
  rewrite E. f_equal.
  transitivity (sqrt (l * l) * sqrt (s * s - b * (v / w) * (b * (v / w)))).
  - rewrite <- sqrt_mult_alt by nra. f_equal. req. ring.
  - rewrite sqrt_square by lra. reflexivity.
Qed.
Lemma sd : similar l m d d'.
Proof using C C' Hl Hm S U.
  assert (P := Hml).
  destruct (ensure3_facts c C) as (_ & A1 & A2 & A3 & _). destruct (ensure3_facts c' C') as (_ & B1 & B2 & B3 & _).
  fold e d in A1, A2, A3. fold e' d' in B1, B2, B3.
  split.
  - rewrite B1, A1, t_spacing2. reflexivity.
  - rewrite B1, A1, t_spacing2. reflexivity.
  - rewrite B3, A3. exact (sim3_tension _ _ _ _ S).
  - rewrite B2, A2, t_weight. apply mag3_multiple. assumption.
Qed.
Lemma f_spacing : c3_spacing e' = mul3 l (c3_spacing e).
Proof using C C' S. unfold e, e'. rewrite (e_spacing c C), (e_spacing c' C'). apply t_spacing. Qed.
Lemma f_weight : c3_weight e' = mul3 (m / l) (c3_weight e).
Proof using C C' S. unfold e, e'. rewrite (e_weight c C), (e_weight c' C'). apply t_weight. Qed.
Lemma f_direction : c3_direction e' = c3_direction e.
Proof using C C' S. unfold e, e'. rewrite (e_direction c C), (e_direction c' C'). apply (sim3_direction _ _ _ _ S). Qed.
Lemma ee : c3_ensure e = e.
Proof using C. apply ensure_twice, C. Qed.
Lemma ee' : c3_ensure e' = e'.
Proof using C'. apply ensure_twice, C'. Qed.

(** The angle between the planes. *)
Lemma f_angle : forall neg, Vector3d_Angle (c3_spacing e') PlXz neg - Vector2d_Angle (c2_spacing d') neg =
  Vector3d_Angle (c3_spacing e) PlXz neg - Vector2d_Angle (c2_spacing d) neg :> R.
Proof using C C' Hl Hm S U.
  intros neg. assert (X := sim_x _ _ _ _ sd). assert (Y := sim_y _ _ _ _ sd).
  rewrite f_spacing, angle3_multiple by assumption. f_equal.
  destruct (c2_spacing d') as [x' y'], (c2_spacing d) as [x y]. cbn [v2x v2y] in X, Y. subst x' y'.
  apply angle_multiple. assumption.
Qed.
Lemma chord_unfold : forall (b : Catenary3d RNum) (p : R), c3_CoordinateChord b p =
  let e := c3_ensure b in let d := c3_catenary_2d e in
  let k := c2_CoordinateChord d p true in
  let v := Vector3d_Rotate (mkVector3d (N := RNum) (p2x k) (0 : R) (p2y k)) PlXz
    (Vector3d_Angle (c3_spacing e) PlXz false - Vector2d_Angle (c2_spacing d) false : R) in
  mkPoint3d (v3x v) (v3y v) (v3z v).
Proof using.
  intros b p. unfold c3_CoordinateChord. rn.
  assert (Z : forall x : R, x - 0 = x) by (intros x; ring). rewrite !Z. reflexivity.
Qed.
Lemma t_chord : forall p : R, c3_CoordinateChord c' p =
  mkPoint3d (N := RNum) (l * p3x (c3_CoordinateChord c p)) (l * p3y (c3_CoordinateChord c p)) (l * p3z (c3_CoordinateChord c p)).
Proof using C C' Hl Hm S U U'.
  intros p. rewrite !chord_unfold. cbv zeta. fold e e' d d'.
  rewrite f_angle, (s_chord d d' l m gd gd' Hl Hm sd). cbn [p2x p2y].
  set (k := c2_CoordinateChord d p true).
  assert (E : mkVector3d (N := RNum) (l * p2x k) (0 : R) (l * p2y k) = mul3 l (mkVector3d (N := RNum) (p2x k) (0 : R) (p2y k))).
  { unfold mul3. cbn [v3x v3y v3z]. rewrite Rmult_0_r. reflexivity. }
  rewrite E, rotate3_multiple by assumption. reflexivity.
Qed.
Lemma coordinate_unfold : forall (b : Catenary3d RNum) (p : R), c3_current b -> c3_Coordinate b p =
  let e := c3_ensure b in let d := c3_catenary_2d e in
  let q := c2_Coordinate d p true in let k := c2_CoordinateChord d p true in let k3 := c3_CoordinateChord b p in
  let v := Vector3d_Rotate (mkVector3d (N := RNum) (p2x q - p2x k) (0 : R) (p2y q - p2y k)) PlXz
    (Vector3d_Angle (c3_spacing e) PlXz false - Vector2d_Angle (c2_spacing d) false : R) in
  let a := (Vector3d_Angle (c3_weight e) PlZy false : R) in
  let w := Vector3d_Rotate v PlYz (match c3_direction e with ADNegative => (a * -1 : R) | _ => a end) in
  mkPoint3d (N := RNum) (p3x k3 + v3x w) (p3y k3 + v3y w) (p3z k3 + v3z w).
Proof using.
  intros b p B. unfold c3_Coordinate. cbv zeta.
  assert (Q : c3_CoordinateChord (c3_ensure b) p = c3_CoordinateChord b p).
  { unfold c3_CoordinateChord. rewrite ensure_twice by assumption. reflexivity. }
  rewrite Q. rn. destruct (c3_direction (c3_ensure b)); reflexivity.
Qed.
Lemma t_coordinate : forall p : R, c3_Coordinate c' p =
  mkPoint3d (N := RNum) (l * p3x (c3_Coordinate c p)) (l * p3y (c3_Coordinate c p)) (l * p3z (c3_Coordinate c p)).
Proof using C C' Hl Hm S U U'.
  intros p. rewrite !coordinate_unfold by assumption. cbv zeta. fold e e' d d'.
  rewrite f_angle, t_chord, (s_chord d d' l m gd gd' Hl Hm sd), (s_coordinate d d' l m gd gd' Hl Hm sd), f_direction, f_weight.
  rewrite angle3_multiple by apply Hml. cbn [p2x p2y p3x p3y p3z].
  set (k := c2_CoordinateChord d p true). set (q := c2_Coordinate d p true).

  assert (E : mkVector3d (N := RNum) (l * p2x q - l * p2x k) (0 : R) (l * p2y q - l * p2y k) =
              mul3 l (mkVector3d (N := RNum) (p2x q - p2x k) (0 : R) (p2y q - p2y k))).
  { unfold mul3. cbn [v3x v3y v3z]. f_equal; req; ring. }
  rewrite E, !rotate3_multiple by assumption. unfold mul3 at 1 2 3. cbn [v3x v3y v3z]. f_equal; req; ring.
Qed.
Lemma swing_unfold : forall b : Catenary3d RNum, (c3_SwingAngle b : R) =
  @rad2deg RNum (atan (v3y (c3_weight (c3_ensure b)) / v3z (c3_weight (c3_ensure b)))).
Proof using. reflexivity. Qed.
Lemma t_swing : (c3_SwingAngle c' : R) = c3_SwingAngle c.
Proof using C C' Hl Hm S U.
  rewrite !swing_unfold. fold e e'. rewrite f_weight. unfold mul3. cbn [v3y v3z].
  assert (P := Hml). assert (W := use_wz c U). rewrite <- (e_weight c C) in W. fold e in W.
  f_equal. f_equal. change (F RNum) with R in *. field. repeat split; lra.
Qed.
Lemma t_tangent : forall (p : R) dir, c3_TangentVector c' p dir = c3_TangentVector c p dir.
Proof using C C' Hl Hm S U U'.
  intros p dir. unfold c3_TangentVector. cbv zeta. fold e e' d d'.
  rewrite (s_tangent d d' l m gd gd' Hl Hm sd), f_direction.
  assert (Q : c3_SwingAngle e' = c3_SwingAngle e).
  { assert (T := t_swing). rewrite !swing_unfold in T. fold e e' in T.
    change (c3_SwingAngle e') with (c3_SwingAngle e' : R). rewrite !swing_unfold, ee, ee'. exact T. }
  rewrite Q. assert (A := f_angle true). rn. rewrite A.
  rewrite f_spacing, f_weight. unfold mul3. cbn [v3y v3z].
  rewrite !eq0_multiple by (assumption || apply Hml). reflexivity.
Qed.
Lemma t_tension : forall p : R, (c3_Tension c' p : R) = m * c3_Tension c p.
Proof using C C' Hl Hm S U U'. intros p. exact (s_tension d d' l m gd gd' Hl Hm sd p). Qed.
Lemma tvec_unfold : forall b : Catenary3d RNum, c3_current b -> forall (p : R) dir,
  c3_TensionVector b p dir = Vector3d_Scale (c3_TangentVector b p dir) (c3_Tension b p).
Proof using.
  intros b B p dir. unfold c3_TensionVector, c3_Tension. cbv zeta.
  assert (Q := ensure_twice b B).
  f_equal. unfold c3_TangentVector, c3_SwingAngle. rewrite !Q. reflexivity.
Qed.
Lemma angles_unfold : forall b : Catenary3d RNum, c3_current b -> forall (p : R) dir,
  c3_TangentVector (c3_ensure b) p dir = c3_TangentVector b p dir.
Proof using.
  intros b B p dir.
  assert (Q := ensure_twice b B).
  unfold c3_TangentVector, c3_SwingAngle. rewrite !Q. reflexivity.
Qed.

Lemma similar3_answers : forall q, asks_shape3 q -> c3_answer c' q = times3 (factor3 l m q) (c3_answer c q).
Proof using C C' Hl Hm S U U'.
  assert (G := gd). assert (G' := gd'). assert (D := sd).
  intros q Hq. destruct q; cbn [c3_answer factor3 times3]; cbn [asks_shape3] in Hq; try contradiction; f_equal.
  - exact (s_ck d d' l m G Hl Hm D).
  - apply t_coordinate.
  - apply t_chord.
  - exact (s_length d d' l m G G' Hl Hm D).
  - exact (s_slack d d' l m G G' Hl Hm D).
  - rewrite Rmult_1_l. exact (s_origin d d' l m G G' Hl Hm D).
  - rewrite Rmult_1_l. exact (s_sagpoint d d' l m G G' Hl Hm D).
  - exact (s_sag d d' l m G G' Hl Hm D).
  - exact (s_sagat d d' l m G G' Hl Hm D p).
  - rewrite Rmult_1_l. exact t_swing.
  - rewrite Rmult_1_l. unfold c3_TangentAngleTransverse. rewrite !angles_unfold, t_tangent by assumption. reflexivity.
  - rewrite Rmult_1_l. unfold c3_TangentAngleVertical. rewrite !angles_unfold, t_tangent by assumption. reflexivity.
  - rewrite t_tangent, !Rmult_1_l. destruct c3_TangentVector; reflexivity.
  - exact (t_tension p).
  - rewrite !tvec_unfold, t_tangent, t_tension by assumption. unfold Vector3d_Scale. cbn [v3x v3y v3z]. rn.
    f_equal; req; ring.
  - exact (s_average d d' l m G G' Hl Hm D n Hq).
  - exact (s_max d d' l m G G' Hl Hm D).
  - apply (sim3_direction _ _ _ _ S).
  - apply t_spacing.
  - apply (sim3_tension _ _ _ _ S).
  - apply t_weight.
Qed.
End Similar3.
