(** Properties of Catenary2d and of the cached members of both catenaries
    (catenary.cc).  The objects are all those that a history of calls can produce
    from a new object, with positive tension, unit weight and horizontal spacing. *)
From Coq Require Import ZArith Bool List Reals Lra.
From Verif Require Import Num NumFacts ModelBase ModelCatenary SpecCatenary ProofReal ProofVector HypFacts ProofCatenary.
Import ListNotations.
Open Scope R_scope.

(** The object of the concrete cases: inputs set, replaced and queried in between. *)
Definition sample_calls : list (C2Call RNum) :=
  [ C2SetTension (N := RNum) (700 : R); C2Query; C2SetSpacing (mkVector2d (N := RNum) (1000 : R) (60 : R)); C2Query;
    C2SetWeight (N := RNum) (2 : R); C2Validate; C2SetTension (N := RNum) (5000 : R); C2Query ].
Definition sample_catenary : Catenary2d RNum := c2_run Catenary2d_default sample_calls.
Lemma sample_inputs : (c2_tension sample_catenary : R) = 5000 /\ (c2_weight sample_catenary : R) = 2 /\
  (v2x (c2_spacing sample_catenary) : R) = 1000 /\ (v2y (c2_spacing sample_catenary) : R) = 60.
Proof.
  destruct (inputs2 sample_calls (@Catenary2d_default RNum)) as (A & B & C).
  unfold sample_catenary. rewrite A, B, C. repeat split; reflexivity.
Qed.
Lemma sample_positive : 0 < c2_tension sample_catenary /\ 0 < c2_weight sample_catenary /\
  0 < v2x (c2_spacing sample_catenary).
Proof. destruct sample_inputs as (A & B & C & _). rewrite A, B, C. lra. Qed.

(** C23 *)
Theorem catenary_end_points : forall ks, let c := c2_run (@Catenary2d_default RNum) ks in
  0 < c2_tension c -> 0 < c2_weight c -> 0 < v2x (c2_spacing c) ->
  c2_Coordinate c (0 : R) true = mkPoint2d (N := RNum) (0 : R) (0 : R) /\
  c2_Coordinate c (1 : R) true = mkPoint2d (N := RNum) (v2x (c2_spacing c)) (v2y (c2_spacing c)).
Proof. intros ks c Hh Hw Ha. exact (end_points c (run_positive ks Hh) Hh Hw Ha). Qed.
Print Assumptions catenary_end_points.

Example catenary_end_points_case :
  c2_Coordinate sample_catenary (1 : R) true = mkPoint2d (N := RNum) (1000 : R) (60 : R).
Proof.
  destruct sample_positive as (A & B & C). destruct sample_inputs as (_ & _ & <- & <-).
  exact (proj2 (catenary_end_points sample_calls A B C)).
Qed.

(** C24 *)
Theorem catenary_position_is_arc_length : forall ks, let c := c2_run (@Catenary2d_default RNum) ks in
  0 < c2_tension c -> 0 < c2_weight c -> 0 < v2x (c2_spacing c) ->
  let k := c2_tension c / c2_weight c in
  (forall p : R, p2y (c2_Coordinate c p false) = catenary_curve k (p2x (c2_Coordinate c p false))) /\
  (forall p : R, arc_length (catenary_curve k) (p2x (c2_Coordinate c (0 : R) false))
                   (p2x (c2_Coordinate c p false)) (p * c2_Length c)) /\
  (forall p q : R, p < q -> p2x (c2_Coordinate c p false) < p2x (c2_Coordinate c q false)).
Proof. intros ks c Hh Hw Ha. exact (arc_position c (run_positive ks Hh) Hh Hw Ha). Qed.
Print Assumptions catenary_position_is_arc_length.

Example catenary_position_is_arc_length_case :
  arc_length (catenary_curve 2500) (p2x (c2_Coordinate sample_catenary (0 : R) false))
    (p2x (c2_Coordinate sample_catenary (/ 4 : R) false)) (/ 4 * c2_Length sample_catenary).
Proof.
  destruct sample_positive as (A & B & C). destruct sample_inputs as (E1 & E2 & _).
  assert (H := proj1 (proj2 (catenary_position_is_arc_length sample_calls A B C)) (/ 4)).
  fold sample_catenary in H. rewrite E1, E2 in H. replace (5000 / 2) with 2500 in H by lra. exact H.
Qed.

(** C25 *)
Theorem catenary_length : forall ks, let c := c2_run (@Catenary2d_default RNum) ks in
  0 < c2_tension c -> 0 < c2_weight c -> 0 < v2x (c2_spacing c) ->
  let k := c2_tension c / c2_weight c in
  let a := v2x (c2_spacing c) in let b := v2y (c2_spacing c) in
  0 < c2_Length c /\
  c2_Length c * c2_Length c = b * b + (2 * k * sinh (a / (2 * k))) * (2 * k * sinh (a / (2 * k))) /\
  sqrt (a * a + b * b) < c2_Length c /\
  c2_LengthSlack c = c2_Length c - sqrt (a * a + b * b) /\ 0 < c2_LengthSlack c.
Proof. intros ks c Hh Hw Ha. exact (length_facts c (run_positive ks Hh) Hh Hw Ha). Qed.
Print Assumptions catenary_length.

Example catenary_length_case : sqrt (1000 * 1000 + 60 * 60) < c2_Length sample_catenary.
Proof.
  destruct sample_positive as (A & B & C). destruct sample_inputs as (_ & _ & E1 & E2).
  assert (H := proj1 (proj2 (proj2 (catenary_length sample_calls A B C)))).
  fold sample_catenary in H. rewrite E1, E2 in H. exact H.
Qed.

(** C26: s is the arc length from the low point (0, 0) to the coordinate at p. *)
Theorem catenary_tension : forall ks, let c := c2_run (@Catenary2d_default RNum) ks in
  0 < c2_tension c -> 0 < c2_weight c -> 0 < v2x (c2_spacing c) ->
  let k := c2_tension c / c2_weight c in
  (forall p : R, exists s : R,
    arc_length (catenary_curve k) 0 (p2x (c2_Coordinate c p false)) s /\
    c2_Tension c p = sqrt (c2_tension c * c2_tension c + (c2_weight c * s) * (c2_weight c * s)) /\
    c2_tension c <= c2_Tension c p /\
    (c2_Tension c p = c2_tension c <-> p2x (c2_Coordinate c p false) = 0)) /\
  (forall p : R, 0 <= p <= 1 -> c2_Tension c p <= c2_TensionMax c) /\
  (c2_TensionMax c = c2_Tension c (0 : R) \/ c2_TensionMax c = c2_Tension c (1 : R)).
Proof. intros ks c Hh Hw Ha. exact (tension_facts c (run_positive ks Hh) Hh Hw Ha). Qed.
Print Assumptions catenary_tension.

Example catenary_tension_case : 5000 <= c2_Tension sample_catenary (/ 3 : R) <= c2_TensionMax sample_catenary.
Proof.
  destruct sample_positive as (A & B & C). destruct sample_inputs as (E1 & _).
  destruct (catenary_tension sample_calls A B C) as (H1 & H2 & _).
  destruct (H1 (/ 3)) as (s & _ & _ & H3 & _). fold sample_catenary in H2, H3. rewrite E1 in H3.
  split; [exact H3|]. apply H2. lra.
Qed.

(** C27 *)
Theorem catenary_tension_vector : forall ks, let c := c2_run (@Catenary2d_default RNum) ks in
  0 < c2_tension c -> 0 < c2_weight c -> 0 < v2x (c2_spacing c) ->
  let k := c2_tension c / c2_weight c in
  (forall p : R, exists s : R,
    arc_length (catenary_curve k) 0 (p2x (c2_Coordinate c p false)) s /\
    c2_TensionVector c p ADPositive = mkVector2d (N := RNum) (c2_tension c) (c2_weight c * s) /\
    c2_TensionVector c p ADNegative = mkVector2d (N := RNum) (- c2_tension c) (- (c2_weight c * s)) /\
    forall d, d <> ADNull -> Vector2d_Magnitude (c2_TensionVector c p d) = c2_Tension c p) /\
  v2y (c2_TensionVector c (1 : R) ADPositive) + v2y (c2_TensionVector c (0 : R) ADNegative)
    = c2_weight c * c2_Length c.
Proof. intros ks c Hh Hw Ha. exact (vector_facts c (run_positive ks Hh) Hh Hw Ha). Qed.
Print Assumptions catenary_tension_vector.

Example catenary_tension_vector_case :
  v2x (c2_TensionVector sample_catenary (/ 2 : R) ADPositive) = 5000 /\
  v2y (c2_TensionVector sample_catenary (1 : R) ADPositive) + v2y (c2_TensionVector sample_catenary (0 : R) ADNegative)
    = 2 * c2_Length sample_catenary.
Proof.
  destruct sample_positive as (A & B & C). destruct sample_inputs as (E1 & E2 & _).
  destruct (catenary_tension_vector sample_calls A B C) as (H1 & H2).
  destruct (H1 (/ 2)) as (s & _ & H3 & _). fold sample_catenary in H2, H3. split.
  - rewrite H3. exact E1.
  - rewrite E2 in H2. exact H2.
Qed.

(** C28 *)
Theorem catenary_angle_and_position : forall ks, let c := c2_run (@Catenary2d_default RNum) ks in
  0 < c2_tension c -> 0 < c2_weight c -> 0 < v2x (c2_spacing c) ->
  (forall p : R, c2_PositionFraction c (c2_TangentAngle c p ADPositive) = p) /\
  (forall x : R, -90 < x < 90 -> c2_TangentAngle c (c2_PositionFraction c x) ADPositive = x) /\
  (forall p : R, c2_TangentAngle c p ADNegative = - c2_TangentAngle c p ADPositive) /\
  c2_TangentAngle c (c2_PositionFractionOrigin c) ADPositive = 0 /\
  c2_Coordinate c (c2_PositionFractionOrigin c) false = mkPoint2d (N := RNum) (0 : R) (0 : R).
Proof. intros ks c Hh Hw Ha. exact (angle_facts c (run_positive ks Hh) Hh Hw Ha). Qed.
Print Assumptions catenary_angle_and_position.

Example catenary_angle_and_position_case :
  c2_TangentAngle sample_catenary (c2_PositionFraction sample_catenary (-7 : R)) ADPositive = -7.
Proof.
  destruct sample_positive as (A & B & C).
  destruct (catenary_angle_and_position sample_calls A B C) as (_ & H & _). apply (H (-7)). lra.
Qed.

(** C29 *)
Theorem catenary_sag : forall ks, let c := c2_run (@Catenary2d_default RNum) ks in
  0 < c2_tension c -> 0 < c2_weight c -> 0 < v2x (c2_spacing c) ->
  (forall p : R, let q := c2_CoordinateChord c p false in
     p2x q = p2x (c2_Coordinate c p false) /\
     on_line (p2x (c2_Coordinate c (0 : R) false)) (p2y (c2_Coordinate c (0 : R) false))
             (p2x (c2_Coordinate c (1 : R) false)) (p2y (c2_Coordinate c (1 : R) false)) (p2x q) (p2y q) /\
     c2_SagAt c p = p2y q - p2y (c2_Coordinate c p false)) /\
  (forall p : R, 0 <= p <= 1 -> 0 <= c2_SagAt c p) /\
  (forall p : R, 0 < p < 1 -> 0 < c2_SagAt c p) /\
  c2_SagAt c (0 : R) = 0 /\ c2_SagAt c (1 : R) = 0 /\
  0 <= c2_PositionFractionSagPoint c <= 1 /\
  c2_Sag c = c2_SagAt c (c2_PositionFractionSagPoint c) /\
  (forall p : R, c2_SagAt c p <= c2_Sag c).
Proof. intros ks c Hh Hw Ha. exact (sag_facts c (run_positive ks Hh) Hh Hw Ha). Qed.
Print Assumptions catenary_sag.

Example catenary_sag_case : 0 < c2_SagAt sample_catenary (/ 4 : R) <= c2_Sag sample_catenary.
Proof.
  destruct sample_positive as (A & B & C).
  destruct (catenary_sag sample_calls A B C) as (_ & _ & H1 & _ & _ & _ & _ & H2).
  split; [apply H1; lra|apply H2].
Qed.

(** C30: two dimensions.  An object without setter calls is a new one. *)
Theorem catenary_2d_history : forall (N : Num) ks q,
  let c := c2_run (@Catenary2d_default N) ks in
  c2_answer c q =
    c2_answer (if existsb is_setter2 ks then c2_fresh (c2_spacing c) (c2_tension c) (c2_weight c)
               else Catenary2d_default) q /\
  c2_spacing c = last_of pick_spacing ks Vector2d_default /\
  c2_tension c = last_of pick_tension ks ferr /\
  c2_weight c = last_of pick_weight ks ferr.
Proof. intros N ks q c. exact (conj (history2_all ks q) (inputs2 ks Catenary2d_default)). Qed.
Print Assumptions catenary_2d_history.

(** In particular for N = B64 lm, the floating-point numbers. *)
Example catenary_2d_history_case : forall N : Num,
  let ks := [C2SetTension (N := N) #700; C2SetSpacing (mkVector2d #1000 #60); C2SetWeight #2; C2Query;
             C2SetTension #5000; C2Validate] in
  c2_Length (c2_run Catenary2d_default ks) = c2_Length (c2_fresh (N := N) (mkVector2d #1000 #60) #5000 #2).
Proof.
  intros N ks. exact (f_equal (fun x => match x with ANum y => y | _ => ferr end) (proj1 (catenary_2d_history N ks Q2Length))).
Qed.

(** C30: three dimensions *)
Theorem catenary_3d_history : forall (N : Num) ks q,
  let c := c3_run (@Catenary3d_default N) ks in
  c3_answer c q =
    c3_answer (c3_fresh (c3_direction c) (c3_spacing c) (c3_tension_horizontal c) (c3_weight c)) q /\
  c3_direction c = last_of pick3_direction ks ADPositive /\
  c3_spacing c = last_of pick3_spacing ks Vector3d_default /\
  c3_tension_horizontal c = last_of pick3_tension ks ferr /\
  c3_weight c = last_of pick3_weight ks Vector3d_default.
Proof. intros N ks q c. exact (conj (history3 ks q) (inputs3 ks Catenary3d_default)). Qed.
Print Assumptions catenary_3d_history.

Example catenary_3d_history_case : forall N : Num,
  let ks := [C3SetTension (N := N) #700; C3Query true; C3SetSpacing (mkVector3d #1000 #0 #60); C3Validate;
             C3SetWeight (mkVector3d #0 #1 #2); C3Query true; C3SetTension #5000; C3Query false;
             C3SetDirection ADNegative] in
  c3_Coordinate (c3_run Catenary3d_default ks) (flit 5 (-1)) =
  c3_Coordinate (c3_fresh (N := N) ADNegative (mkVector3d #1000 #0 #60) #5000 (mkVector3d #0 #1 #2)) (flit 5 (-1)).
Proof.
  intros N ks. destruct (catenary_3d_history N ks (Q3Coordinate (flit 5 (-1)))) as (H & A & B & C & D).
  rewrite A, B, C, D in H.
  exact (f_equal (fun x => match x with APoint3 y => y | _ => mkPoint3d ferr ferr ferr end) H).
Qed.

(** C66 *)
Theorem catenary_average_tension : forall ks, let c := c2_run (@Catenary2d_default RNum) ks in
  0 < c2_tension c -> 0 < c2_weight c -> 0 < v2x (c2_spacing c) ->
  let k := c2_tension c / c2_weight c in
  (forall p : R, c2_Tension c p = c2_tension c * cosh (p2x (c2_Coordinate c p false) / k)) /\
  arc_mean (catenary_curve k) (fun x => c2_tension c * cosh (x / k))
    (p2x (c2_Coordinate c (0 : R) false)) (p2x (c2_Coordinate c (1 : R) false)) (c2_TensionAverage c 0) /\
  (forall n, (0 < n)%Z -> c2_tension c <= c2_TensionAverage c n <= c2_TensionMax c).
Proof. intros ks c Hh Hw Ha. exact (average_facts c (run_positive ks Hh) Hh Hw Ha). Qed.
Print Assumptions catenary_average_tension.

Example catenary_average_tension_case : 5000 <= c2_TensionAverage sample_catenary 10 <= c2_TensionMax sample_catenary.
Proof.
  destruct sample_positive as (A & B & C). destruct sample_inputs as (E1 & _).
  destruct (catenary_average_tension sample_calls A B C) as (_ & _ & H). fold sample_catenary in H.
  rewrite E1 in H. apply H. reflexivity.
Qed.
