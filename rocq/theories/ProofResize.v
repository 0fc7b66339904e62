(** Proofs on lines with all lengths multiplied. *)
From Coq Require Import ZArith Bool List Reals Lra Lia.
From Verif Require Import Num NumFacts ModelBase ModelAlignment ModelLine SpecDatum SpecResize ProofReal ProofVector ProofScale3 ProofDatum.
Import ListNotations.
Open Scope R_scope.

Section Resize.
Variable k : R.
Hypothesis Hk : 0 < k.

Lemma Rleb_times : forall a b, Rleb (k * a) (k * b) = Rleb a b.
Proof using Hk. intros a b. destruct (Rleb a b) eqn:A, (Rleb (k * a) (k * b)) eqn:B; rbool; try reflexivity; exfalso; nra. Qed.
Lemma Reqb_times : forall a b, Reqb (k * a) (k * b) = Reqb a b.
Proof using Hk. intros a b. destruct (Reqb a b) eqn:A, (Reqb (k * a) (k * b)) eqn:B; rbool; try reflexivity; exfalso; nra. Qed.

Definition wide (j : R) (v : Vector2d RNum) : Vector2d RNum := mkVector2d (N := RNum) (j * v2x v) (j * v2y v).

Lemma rotate_wide : forall j v (a : R), 0 < j -> Vector2d_Rotate (wide j v) a = wide j (Vector2d_Rotate v a).
Proof using. intros j [x y] a J. unfold wide. cbn [v2x v2y]. apply rotate_multiple, J. Qed.

Lemma mag_wide : forall j v, 0 < j -> mag (wide j v) = j * mag v.
Proof using.
  intros j [x y] J. unfold mag, wide. cbn [v2x v2y]. transitivity (sqrt (j * j) * sqrt (x * x + y * y)).
  - rewrite <- sqrt_mult_alt by nra. f_equal. ring.
  - rewrite sqrt_square by lra. reflexivity.
Qed.

(** A vector scaled to a length. *)
Lemma scale_wide : forall j v (a b : R), 0 < j -> Vector2d_Scale (wide j v) (b * a / mag (wide j v)) = wide b (Vector2d_Scale v (a / mag v)).
Proof using.
  intros j v a b J. rewrite mag_wide by exact J. unfold Vector2d_Scale, wide. cbn [v2x v2y]. rn.
  destruct (Req_dec (mag v) 0) as [E|E].
  - assert (Z := mag_sq v). rewrite E in Z. assert (X : v2x v = 0 :> R) by nra. assert (Y : v2y v = 0 :> R) by nra. rewrite X, Y. f_equal; rring.
  - f_equal; rfield; lra.
Qed.

Lemma from_times : forall j p (a b c : R) w, 0 < j ->
  PointXyzAlignmentFromVector (N := RNum) (times k p) (k * a) (k * b) c (wide j w) =
  (times k (fst (PointXyzAlignmentFromVector p a b c w)), wide k (snd (PointXyzAlignmentFromVector p a b c w))).
Proof using.
  intros j p a b c w J. unfold PointXyzAlignmentFromVector. cbn [fst snd]. rewrite rotate_wide by exact J. rewrite !mag_R.
  change (fdiv (n := RNum)) with Rdiv. rewrite scale_wide by exact J. f_equal. unfold times, wide. cbn [p3x p3y p3z v2x v2y]. rn. f_equal; rring.
Qed.

Lemma wide_1 : forall w, wide 1 w = w.
Proof using. intros [x y]. unfold wide. cbn [v2x v2y]. f_equal; rring. Qed.

Lemma segment_times : forall a (x : R), IndexSegment (map (resized_point k) a) (k * x : R) = IndexSegment a x.
Proof using Hk.
  intros a x. unfold IndexSegment, IsValidStation. rewrite front_map, back_map.
  destruct (front a) as [f| |]; [|reflexivity|reflexivity]. destruct (back a) as [b| |]; [|reflexivity|reflexivity].
  cbn [omap obind]. cbn [resized_point ap_station]. rn. rewrite !Rleb_times, Reqb_times.
  destruct (negb _); [reflexivity|]. destruct (Reqb x _); [reflexivity|].
  assert (Q : forall a i, IndexSegment_search (N := RNum) (k * x) (map (resized_point k) a) i = IndexSegment_search (N := RNum) x a i).
  { induction a0 as [|p a0 IH]; intros i; [reflexivity|]. cbn [map IndexSegment_search resized_point ap_station]. rn.
    rewrite Rleb_times, IH. reflexivity. }
  rewrite Q. reflexivity.
Qed.

Lemma points_times : forall a o, PointsAlignment (times k o) (map (resized_point k) a) = map (times k) (PointsAlignment o a).
Proof using Hk.
  intros [|p a] o; [reflexivity|]. cbn [PointsAlignment map]. f_equal.
  set (w0 := mkVector2d (N := RNum) (fofZ 1) (fofZ 0)). rewrite <- (wide_1 w0) at 1. generalize w0. clear w0.
  assert (J : 0 < 1) by lra. revert J. generalize 1. revert p o.
  induction a as [|q a IH]; intros p o j J w; [reflexivity|]. cbn [map UpdatePointsXyzAlignment_loop].
  assert (D : forall x y : R, k * x - k * y = k * (x - y)) by (intros; ring).
  cbn [resized_point ap_station ap_elevation ap_rotation]. rn. rewrite !D, from_times by exact J.
  destruct (PointXyzAlignmentFromVector o _ _ _ w) as [p' w'] eqn:E. cbn [fst snd map]. f_equal. apply IH, Hk.
Qed.

Lemma vector_times : forall pts i, VectorXyAlignmentSegment (map (times k) pts) i = VectorXyAlignmentSegment pts i.
Proof using Hk.
  intros pts i. unfold VectorXyAlignmentSegment. rewrite !vec_at_map.
  destruct (vec_at pts i) as [p| |]; [|reflexivity|reflexivity].
  destruct (vec_at pts (i + 1)) as [q| |]; [|reflexivity|reflexivity]. cbn [omap obind times p3x p3y].
  assert (D : forall x y : R, k * x - k * y = k * (x - y)) by (intros; ring). rn. rewrite !D. f_equal.
  set (v := mkVector2d (N := RNum) (p3x q - p3x p : R) (p3y q - p3y p : R)).
  change (mkVector2d (N := RNum) _ _) with (wide k v). rewrite !mag_R.
  assert (S := scale_wide k v 1 1 Hk). rewrite Rmult_1_l, wide_1 in S. exact S.
Qed.

Lemma station_times : forall (a : list (AlignmentPoint RNum)) (pts : list (Point3d RNum)) (x : R),
  same_outcome (fun p q => (IndexSegment a x = Ok (-1)%Z /\ p = Point3d_default /\ q = Point3d_default) \/ q = times k p)
    (PointXyzAlignmentFromStation a pts x)
    (PointXyzAlignmentFromStation (map (resized_point k) a) (map (times k) pts) (k * x : R)).
Proof using Hk.
  intros a pts x. unfold PointXyzAlignmentFromStation. rewrite segment_times.
  destruct (IndexSegment a x) as [i| |]; [|exact I|exact I]. cbn [obind].
  destruct (i =? -1)%Z eqn:Ei; [apply Z.eqb_eq in Ei; left; subst i; repeat split|].
  rewrite !vec_at_map. destruct (vec_at pts i) as [p| |]; [|exact I|exact I].
  destruct (vec_at pts (i + 1)) as [q| |]; [|exact I|exact I]. cbn [omap obind].
  rewrite !next_deref_map. destruct (next_deref a i) as [b| |]; [|exact I|exact I]. cbn [omap obind].
  cbn [resized_point ap_station]. rn. rewrite Reqb_times. destruct (Reqb x (ap_station b)); [right; reflexivity|].
  destruct (next_deref a (i + 1)) as [c| |]; [|exact I|exact I]. cbn [omap obind].
  cbn [resized_point ap_station ap_elevation ap_rotation]. rn.
  rewrite Reqb_times. destruct (Reqb x (ap_station c)); [right; reflexivity|].
  assert (D : forall x y : R, k * x - k * y = k * (x - y)) by (intros; ring). rewrite !D, vector_times.
  set (w := if (i =? 0)%Z then _ else _). destruct w as [w| |]; [|exact I|exact I]. cbn [obind].
  right. rewrite <- (wide_1 w) at 1.
  set (h := ap_elevation c - ap_elevation b). set (s := ap_station c - ap_station b). set (d := x - ap_station b).
  replace (k * h / (k * s) * (k * d)) with (k * (h / s * d)); [rewrite from_times by lra; reflexivity|].
  destruct (Req_dec s 0) as [E|E]; [rewrite E; unfold Rdiv; rewrite !Rmult_0_r, Rinv_0; ring|field; lra].
Qed.

Lemma station_grown : forall (a : list (AlignmentPoint RNum)) (pts : list (Point3d RNum)) (x : R),
  same_outcome (grown k) (PointXyzAlignmentFromStation a pts x)
    (PointXyzAlignmentFromStation (map (resized_point k) a) (map (times k) pts) (k * x : R)).
Proof using Hk.
  intros a pts x. assert (T := station_times a pts x).
  destruct (PointXyzAlignmentFromStation a pts x), (PointXyzAlignmentFromStation _ _ _); try exact T.
  destruct T as [(_ & A & B)|T]; [right; split; assumption|left; exact T].
Qed.

Lemma structures_times : forall (a : list (AlignmentPoint RNum)) (pts : list (Point3d RNum)) ss ss', map snd ss' = map (fun n => resized_line_structure k (snd n)) ss ->
  let x := UpdatePointsXyzLineStructures_loop a pts ss in
  let y := UpdatePointsXyzLineStructures_loop (map (resized_point k) a) (map (times k) pts) ss' in
  Forall2 (grown k) (fst x) (fst y) /\ snd y = snd x.
Proof using Hk.
  intros a pts. induction ss as [|[i t] ss IH]; intros [|[j t'] ss'] E; try discriminate E.
  - split; [constructor|reflexivity].
  - cbn [map snd] in E. injection E as E1 E2. specialize (IH ss' E2). subst t'. cbv zeta in *.
    cbn [UpdatePointsXyzLineStructures_loop]. cbn [resized_line_structure ls_station].
    assert (T := station_grown a pts (ls_station t)).
    destruct (PointXyzAlignmentFromStation a pts (ls_station t)) as [p| |],
      (PointXyzAlignmentFromStation (map (resized_point k) a) (map (times k) pts) (k * ls_station t : R)) as [q| |];
      cbn [same_outcome] in T; try contradiction T; try (split; [constructor|reflexivity]).
    destruct (UpdatePointsXyzLineStructures_loop a pts ss) as [x r],
      (UpdatePointsXyzLineStructures_loop (map (resized_point k) a) (map (times k) pts) ss') as [y r'].
    cbn [fst snd] in *. destruct IH as (IH & ->). split; [constructor; assumption|reflexivity].
Qed.

Lemma structures_right : forall (a : list (AlignmentPoint RNum)) (pts : list (Point3d RNum)) ss ss', map snd ss' = map (fun n => resized_line_structure k (snd n)) ss ->
  forall i n p q, nth_error ss i = Some n ->
  nth_error (fst (UpdatePointsXyzLineStructures_loop a pts ss)) i = Some p ->
  nth_error (fst (UpdatePointsXyzLineStructures_loop (map (resized_point k) a) (map (times k) pts) ss')) i = Some q ->
  IndexSegment a (ls_station (snd n)) = Ok (-1)%Z \/ q = times k p.
Proof using Hk.
  intros a pts. induction ss as [|[i t] ss IH]; intros [|[j t'] ss'] E; try discriminate E.
  - intros [|m] n p q H; discriminate H.
  - cbn [map snd] in E. injection E as E1 E2. specialize (IH ss' E2). subst t'.
    intros m n p q. cbn [UpdatePointsXyzLineStructures_loop]. cbn [resized_line_structure ls_station].
    assert (T := station_times a pts (ls_station t)).
    destruct (PointXyzAlignmentFromStation a pts (ls_station t)) as [p0| |],
      (PointXyzAlignmentFromStation (map (resized_point k) a) (map (times k) pts) (k * ls_station t : R)) as [q0| |];
      try contradiction T; try (intros _ H; destruct m; discriminate H).
    destruct (UpdatePointsXyzLineStructures_loop a pts ss) as [x r],
      (UpdatePointsXyzLineStructures_loop (map (resized_point k) a) (map (times k) pts) ss') as [y r'].
    cbn [fst] in *. destruct m as [|m]; cbn [nth_error]; [|apply IH].
    intros H1 H2 H3. injection H1 as <-. injection H2 as <-. injection H3 as <-.
    destruct T as [(T & _)|T]; [left|right]; exact T.
Qed.

Lemma grown_vec : forall l l' i, Forall2 (grown k) l l' -> same_outcome (grown k) (vec_at l i) (vec_at l' i).
Proof using.
  intros l l' i F. unfold vec_at. destruct (i <? 0)%Z; [exact I|]. generalize (Z.to_nat i). intros n. revert n.
  induction F as [|p q l l' M F IH]; intros [|n]; cbn [nth_error]; try exact I; [exact M|apply IH].
Qed.
End Resize.

(** ** The queries *)
Section Queries.
Context {P : Type}.
Variable k : R.
Hypothesis Hk : 0 < k.
Variables l l' : @Line RNum P.
Hypothesis U : unanswered l.
Hypothesis U' : unanswered l'.
Hypothesis D : resized k l l'.

Let pts := PointsAlignment (tl_origin l) (tl_alignment l).
Let loop := UpdatePointsXyzLineStructures_loop (tl_alignment l) pts (tl_line_structures l).
Let pts' := PointsAlignment (tl_origin l') (tl_alignment l').
Let loop' := UpdatePointsXyzLineStructures_loop (tl_alignment l') pts' (tl_line_structures l').

Lemma pts_grown : pts' = map (times k) pts.
Proof using D Hk. unfold pts', pts. rewrite (rz_alignment _ _ _ D), (rz_origin _ _ _ D). apply points_times, Hk. Qed.
Lemma loop_grown : Forall2 (grown k) (fst loop) (fst loop') /\ snd loop' = snd loop.
Proof using D Hk.
  unfold loop, loop'. rewrite pts_grown, (rz_alignment _ _ _ D). apply structures_times; [exact Hk|]. apply (rz_structures _ _ _ D).
Qed.

Lemma query_grown : forall A B (f : A) (f' : B) (r : A -> B -> Prop) c c',
  (same_outcome r (c (with_flags (with_points l pts (fst loop)) true true))
                  (c' (with_flags (with_points l' pts' (fst loop')) true true))) ->
  same_outcome r (snd (query l f c)) (snd (query l' f' c')).
Proof using U U' D Hk.
  intros A B f f' r c c' H. rewrite !query_fresh by assumption. cbv zeta. fold pts loop pts' loop'.
  destruct loop_grown as (_ & ->). destruct (snd loop); [exact H|exact I|exact I].
Qed.

Lemma resize_alignment : same_outcome (fun x y => y = option_map (map (times k)) x)
  (snd (PointsXyzAlignment l)) (snd (PointsXyzAlignment l')).
Proof using U U' D Hk.
  unfold PointsXyzAlignment. apply query_grown. cbn [same_outcome tl_points_alignment with_flags with_points].
  cbn [option_map]. rewrite pts_grown. reflexivity.
Qed.
Lemma resize_structures : same_outcome (grown_list k)
  (snd (PointsXyzLineStructures l)) (snd (PointsXyzLineStructures l')).
Proof using U U' D Hk.
  unfold PointsXyzLineStructures. apply query_grown. cbn [same_outcome grown_list tl_points_structures with_flags with_points].
  apply loop_grown.
Qed.
Lemma resize_station : forall x : R, same_outcome (grown k)
  (snd (PointXyzAlignment l x)) (snd (PointXyzAlignment l' (k * x : R))).
Proof using U U' D Hk.
  intros x. unfold PointXyzAlignment. apply query_grown. cbn [tl_points_alignment tl_alignment with_flags with_points].
  rewrite pts_grown, (rz_alignment _ _ _ D). apply station_grown, Hk.
Qed.
Lemma grown_length : length (tl_line_structures l') = length (tl_line_structures l).
Proof using D.
  rewrite <- (map_length snd (tl_line_structures l')), (rz_structures _ _ _ D), map_length. reflexivity.
Qed.
Lemma resize_structure : forall i, same_outcome (grown k)
  (snd (PointXyzLineStructure l i)) (snd (PointXyzLineStructure l' i)).
Proof using U U' D Hk.
  intros i. unfold PointXyzLineStructure. apply query_grown. unfold IsValidLineStructureIndex, valid_index.
  cbn [tl_line_structures tl_points_structures with_flags with_points]. rewrite grown_length.
  destruct (negb _); [right; split; reflexivity|]. apply grown_vec, loop_grown.
Qed.
Lemma vector_grown : forall t, VectorXyAlignmentStructure (tl_alignment l') pts' (resized_line_structure k t) =
  VectorXyAlignmentStructure (tl_alignment l) pts t.
Proof using D Hk.
  intros t. unfold VectorXyAlignmentStructure. rewrite pts_grown, (rz_alignment _ _ _ D).
  cbn [resized_line_structure ls_station]. rewrite segment_times, front_map, back_map by exact Hk.
  destruct (IndexSegment (tl_alignment l) (ls_station t)) as [i| |]; [|reflexivity|reflexivity]. cbn [obind].
  destruct (front (tl_alignment l)) as [f| |]; [|reflexivity|reflexivity].
  destruct (back (tl_alignment l)) as [b| |]; [|reflexivity|reflexivity]. cbn [omap obind resized_point ap_station].
  rn. rewrite !Reqb_times, !vector_times by exact Hk.
  assert (Q : existsb (fun p : AlignmentPoint RNum => Reqb (k * ls_station t) (ap_station p)) (map (resized_point k) (tl_alignment l)) =
              existsb (fun p : AlignmentPoint RNum => Reqb (ls_station t) (ap_station p)) (tl_alignment l)).
  { induction (tl_alignment l) as [|p a IH]; [reflexivity|]. cbn [map existsb resized_point ap_station].
    rewrite Reqb_times, IH by exact Hk. reflexivity. }
  rewrite Q. reflexivity.
Qed.

Lemma resize_attachment : forall i j, same_outcome (grown k)
  (snd (PointXyzLineStructureAttachment l i j)) (snd (PointXyzLineStructureAttachment l' i j)).
Proof using U U' D Hk.
  intros i j. unfold PointXyzLineStructureAttachment. apply query_grown. unfold IsValidLineStructureIndex, valid_index.
  cbn [tl_line_structures tl_points_structures tl_points_alignment tl_alignment with_flags with_points]. rewrite grown_length.
  destruct (negb _); [right; split; reflexivity|].
  assert (T : omap snd (next_deref (tl_line_structures l') i) =
              omap (fun n => resized_line_structure k (snd n)) (next_deref (tl_line_structures l) i)).
  { rewrite <- !next_deref_map. f_equal. apply (rz_structures _ _ _ D). }
  destruct (next_deref (tl_line_structures l) i) as [[n t]| |] eqn:En, (next_deref (tl_line_structures l') i) as [[n' t']| |];
    cbn [omap obind] in T; try discriminate T; try exact I.
  injection T as T. cbn [snd] in *. subst t'. cbn [obind snd]. rewrite vector_grown.
  cbn [resized_line_structure ls_structure ls_rotation ls_offset ls_height_adjustment].
  destruct (ls_structure t) as [st|]; [|exact I]. cbn [option_map]. cbn [resized_structure st_attachments st_height]. rewrite map_length.
  destruct (negb (_ && _)); [right; split; reflexivity|]. rewrite vec_at_map.
  destruct (vec_at (st_attachments st) j) as [a| |]; [|exact I|exact I]. cbn [omap obind].
  destruct (VectorXyAlignmentStructure (tl_alignment l) pts t) as [va| |] eqn:VA; [|exact I|exact I]. cbn [obind].
  assert (S := grown_vec k (fst loop) (fst loop') i (proj1 loop_grown)).
  assert (G : Point3d RNum ->
    let v := Vector2d_Rotate (mkVector2d (N := RNum) (sa_offset_longitudinal a) (fopp (sa_offset_transverse a))) (ls_rotation t) in
    let w := Vector2d_Rotate (mkVector2d (N := RNum) (fofZ 0 + v2x v)%num (fofZ 0 + (v2y v - ls_offset t))%num) (Vector2d_Angle va false) in
    let v' := Vector2d_Rotate (mkVector2d (N := RNum) (sa_offset_longitudinal (resized_attachment k a)) (fopp (sa_offset_transverse (resized_attachment k a)))) (ls_rotation t) in
    let w' := Vector2d_Rotate (mkVector2d (N := RNum) (fofZ 0 + v2x v')%num (fofZ 0 + (v2y v' - (k * ls_offset t)%R))%num) (Vector2d_Angle va false) in
    v' = wide k v /\ w' = wide k w).
  { intros _. cbv zeta.
    assert (E : Vector2d_Rotate (mkVector2d (N := RNum) (sa_offset_longitudinal (resized_attachment k a)) (fopp (sa_offset_transverse (resized_attachment k a)))) (ls_rotation t) =
      wide k (Vector2d_Rotate (mkVector2d (N := RNum) (sa_offset_longitudinal a) (fopp (sa_offset_transverse a))) (ls_rotation t))).
    { rewrite <- rotate_wide by exact Hk. f_equal. unfold wide, resized_attachment. cbn [v2x v2y sa_offset_longitudinal sa_offset_transverse]. rn. f_equal; rring. }
    split; [exact E|]. rewrite E. clear E. generalize (Vector2d_Rotate (mkVector2d (N := RNum) (sa_offset_longitudinal a) (fopp (sa_offset_transverse a))) (ls_rotation t)).
    intros v. rewrite <- rotate_wide by exact Hk. f_equal. unfold wide. cbn [v2x v2y]. rn. f_equal; rring. }
  destruct (vec_at (fst loop) i) as [p| |] eqn:Ep, (vec_at (fst loop') i) as [q| |] eqn:Eq; cbn [same_outcome] in S;
    try contradiction S; try exact I. cbn [obind same_outcome]. left.
  destruct (G p) as (_ & Gw). rewrite Gw. clear G Gw.
  assert (Q : q = times k p).
  { destruct S as [S | [-> ->]]; [exact S|].
    unfold vec_at in Ep, Eq. unfold next_deref in En. destruct (i <? 0)%Z; [discriminate Ep|].
    destruct (nth_error (fst loop) (Z.to_nat i)) as [p|] eqn:F1; [|discriminate Ep]. injection Ep as ->.
    destruct (nth_error (fst loop') (Z.to_nat i)) as [q|] eqn:F2; [|discriminate Eq]. injection Eq as ->.
    destruct (nth_error (tl_line_structures l) (Z.to_nat i)) as [n0|] eqn:F3; [|discriminate En]. injection En as ->.
    unfold loop' in F2. rewrite pts_grown, (rz_alignment _ _ _ D) in F2.
    destruct (structures_right k Hk (tl_alignment l) pts _ _ (rz_structures _ _ _ D) _ _ _ _ F3 F1 F2) as [E|E]; [|exact E].
    exfalso. unfold VectorXyAlignmentStructure in VA. cbn [snd] in E. rewrite E in VA. cbn [obind] in VA.
    destruct (front (tl_alignment l)); [|discriminate VA|discriminate VA].
    destruct (back (tl_alignment l)); [|discriminate VA|discriminate VA]. cbn [obind] in VA.
    destruct (_ || _); [discriminate VA|]. destruct (negb _); discriminate VA. }
  subst q. unfold times, wide, resized_attachment. cbn [p3x p3y p3z v2x v2y sa_offset_vertical_top]. rn. f_equal; rring.
Qed.
End Queries.
