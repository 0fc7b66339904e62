(** Properties C38 and C39, in exact real arithmetic. *)
From Coq Require Import Reals Lra.
From Verif Require Import Num NumFacts ModelBase SpecVector ProofReal ProofVector.
Open Scope R_scope.

(** C38: Rotate turns the vector (also the zero vector) by the angle, up to the
    error of the 15 digits of pi. *)
Theorem vector_rotate_turns :
  forall (v : Vector2d RNum) (a : R), 5 / 100000 <= Rabs a ->
    exists phi, about_degrees a phi /\
      turned (v2x v) (v2y v) phi (v2x (Vector2d_Rotate (N := RNum) v a)) (v2y (Vector2d_Rotate (N := RNum) v a)).
Proof. exact Rotate_turned. Qed.
Print Assumptions vector_rotate_turns.

(** C38: the magnitude is kept exactly, for every angle. *)
Theorem vector_rotate_magnitude :
  forall (v : Vector2d RNum) (a : R),
    sqrt (v2x (Vector2d_Rotate (N := RNum) v a) * v2x (Vector2d_Rotate (N := RNum) v a) +
          v2y (Vector2d_Rotate (N := RNum) v a) * v2y (Vector2d_Rotate (N := RNum) v a)) =
    sqrt (v2x v * v2x v + v2y v * v2y v).
Proof. exact Rotate_mag. Qed.
Print Assumptions vector_rotate_magnitude.

(** C38: two rotations add their angles. *)
Theorem vector_rotate_compose :
  forall (v : Vector2d RNum) (a b : R), 5 / 100000 <= Rabs a -> 5 / 100000 <= Rabs b ->
    exists phi, Rabs (phi - (a + b) * PI / 180) <= (4 + Rabs a / 180 + Rabs b / 180) * (4 / 1000000000000000) /\
      turned (v2x v) (v2y v) phi
        (v2x (Vector2d_Rotate (N := RNum) (Vector2d_Rotate (N := RNum) v a) b))
        (v2y (Vector2d_Rotate (N := RNum) (Vector2d_Rotate (N := RNum) v a) b)).
Proof. exact Rotate_twice. Qed.
Print Assumptions vector_rotate_compose.

(** C38: an angle below the limit changes nothing. *)
Theorem vector_rotate_small :
  forall (v : Vector2d RNum) (a : R), Rabs a < 5 / 100000 -> Vector2d_Rotate (N := RNum) v a = v.
Proof. exact Rotate_small. Qed.
Print Assumptions vector_rotate_small.

(** C38: a rotation in a plane turns the two components of the plane and keeps the
    third one. *)
Theorem vector3_rotate_turns :
  forall (v : Vector3d RNum) p (a : R) ax1 ax2 ax3,
    plane_axes p = Some (ax1, ax2, ax3) -> 5 / 100000 <= Rabs a ->
    component (Vector3d_Rotate (N := RNum) v p a) ax3 = component v ax3 /\
    exists phi, about_degrees a phi /\
      turned (component v ax1) (component v ax2) phi
        (component (Vector3d_Rotate (N := RNum) v p a) ax1) (component (Vector3d_Rotate (N := RNum) v p a) ax2).
Proof. exact Rotate3_turned. Qed.
Print Assumptions vector3_rotate_turns.

(** C38: the magnitude of a 3D vector is kept for every plane and angle. *)
Theorem vector3_rotate_magnitude :
  forall (v : Vector3d RNum) p (a : R),
    Vector3d_Magnitude (N := RNum) (Vector3d_Rotate (N := RNum) v p a) = Vector3d_Magnitude (N := RNum) v.
Proof. exact turned_mag3. Qed.
Print Assumptions vector3_rotate_magnitude.

(** C39: the angle is the direction, up to the error of the 15 digits of pi. *)
Theorem vector_angle_is_direction :
  forall v : Vector2d RNum, ((v2x v : R) <> 0 \/ (v2y v : R) <> 0) ->
    exists t, (v2x v : R) = Vector2d_Magnitude (N := RNum) v * cos t /\
      (v2y v : R) = Vector2d_Magnitude (N := RNum) v * sin t /\
      0 <= t < 2 * PI /\ Rabs (Vector2d_Angle (N := RNum) v false * PI / 180 - t) <= 16 / 1000000000000000.
Proof. exact Angle_spec. Qed.
Print Assumptions vector_angle_is_direction.

(** C39: the range of the angle, and the form with negative angles. *)
Theorem vector_angle_range :
  forall v : Vector2d RNum, ((v2x v : R) <> 0 \/ (v2y v : R) <> 0) ->
    0 <= Vector2d_Angle (N := RNum) v false < 360 /\ -180 < Vector2d_Angle (N := RNum) v true <= 180 /\
    (Vector2d_Angle (N := RNum) v true = Vector2d_Angle (N := RNum) v false \/
     Vector2d_Angle (N := RNum) v true = Vector2d_Angle (N := RNum) v false - 360).
Proof. exact Angle_all. Qed.
Print Assumptions vector_angle_range.

(** C39: a 3D vector uses the two components of the plane. *)
Theorem vector3_angle_in_plane :
  forall (v : Vector3d RNum) p ax1 ax2 ax3 neg, plane_axes p = Some (ax1, ax2, ax3) ->
    Vector3d_Angle (N := RNum) v p neg =
    Vector2d_Angle (N := RNum) (mkVector2d (N := RNum) (component v ax1) (component v ax2)) neg.
Proof. exact Angle3_spec. Qed.
Print Assumptions vector3_angle_in_plane.

(** ** Concrete cases *)
Example rotate_3_4 :
  let v := mkVector2d (N := RNum) 3 4 in
  ((v2x v : R) <> 0 \/ (v2y v : R) <> 0) /\ 5 / 100000 <= Rabs 90 /\ 5 / 100000 <= Rabs (-30) /\
  Rabs (1 / 100000) < 5 / 100000 /\
  sqrt (v2x (Vector2d_Rotate (N := RNum) v 90) * v2x (Vector2d_Rotate (N := RNum) v 90) +
        v2y (Vector2d_Rotate (N := RNum) v 90) * v2y (Vector2d_Rotate (N := RNum) v 90)) = 5.
Proof.
  cbn zeta. rewrite vector_rotate_magnitude. cbn [v2x v2y].
  replace (3 * 3 + 4 * 4) with (5 * 5) by ring. rewrite sqrt_square by lra.
  rewrite (Rabs_pos_eq 90), (Rabs_pos_eq (1 / 100000)), (Rabs_left (-30)) by lra.
  repeat split; lra.
Qed.

Example angle_down : Vector2d_Angle (N := RNum) (mkVector2d (N := RNum) 0 (-2)) false = 270 /\
  Vector2d_Angle (N := RNum) (mkVector2d (N := RNum) 0 (-2)) true = -90 /\
  plane_axes PlZy = Some (AxZ, AxY, AxX).
Proof. exact angle_down_fact. Qed.
