(** Proofs on lines with another origin and another zero of stations and elevations. *)
From Coq Require Import ZArith Bool List Reals Lra Lia.
From Verif Require Import Num NumFacts ModelBase ModelAlignment ModelLine SpecDatum ProofReal.
Import ListNotations.
Open Scope R_scope.

Lemma Rleb_shift : forall a b s, Rleb (a + s) (b + s) = Rleb a b.
Proof. intros a b s. destruct (Rleb a b) eqn:A, (Rleb (a + s) (b + s)) eqn:B; rbool; try reflexivity; exfalso; lra. Qed.
Lemma Reqb_shift : forall a b s, Reqb (a + s) (b + s) = Reqb a b.
Proof.
  intros a b s. destruct (Reqb a b) eqn:A, (Reqb (a + s) (b + s)) eqn:B; rbool; try reflexivity; exfalso; lra.
Qed.
Lemma vec_at_map : forall A B (f : A -> B) l i, vec_at (map f l) i = omap f (vec_at l i).
Proof.
  intros A B f l i. unfold vec_at. destruct (i <? 0)%Z; [reflexivity|]. rewrite nth_error_map.
  destruct (nth_error l (Z.to_nat i)); reflexivity.
Qed.
Lemma next_deref_map : forall A B (f : A -> B) l i, next_deref (map f l) i = omap f (next_deref l i).
Proof.
  intros A B f l i. unfold next_deref. destruct (i <? 0)%Z; [reflexivity|]. rewrite nth_error_map.
  destruct (nth_error l (Z.to_nat i)); reflexivity.
Qed.
Lemma front_map : forall A B (f : A -> B) l, front (map f l) = omap f (front l).
Proof. intros A B f [|a l]; reflexivity. Qed.
Lemma last_map : forall A B (f : A -> B) l a, last (map f l) (f a) = f (last l a).
Proof. intros A B f. induction l as [|b [|x l] IH]; intros a; [reflexivity|reflexivity|]. exact (IH a). Qed.
Lemma back_map : forall A B (f : A -> B) l, back (map f l) = omap f (back l).
Proof. intros A B f [|a l]; [reflexivity|]. cbn. rewrite last_map. reflexivity. Qed.

Section Datum.
Variables s e : R.
Variable v : Point3d RNum.
Definition restation (p : AlignmentPoint RNum) : AlignmentPoint RNum :=
  mkAP (N := RNum) (ap_elevation p + e) (ap_rotation p) (ap_station p + s).

Lemma segment_shift : forall a (x : R), IndexSegment (map restation a) (x + s : R) = IndexSegment a x.
Proof.
  intros a x. unfold IndexSegment, IsValidStation. rewrite front_map, back_map.
  destruct (front a) as [f| |]; [|reflexivity|reflexivity]. destruct (back a) as [b| |]; [|reflexivity|reflexivity].
  cbn [omap obind]. cbn [restation ap_station]. rn. rewrite !Rleb_shift, Reqb_shift.
  destruct (negb _); [reflexivity|]. destruct (Reqb x _); [reflexivity|].
  assert (Q : forall a k, IndexSegment_search (N := RNum) (x + s) (map restation a) k = IndexSegment_search (N := RNum) x a k).
  { induction a0 as [|p a0 IH]; intros k; [reflexivity|]. cbn [map IndexSegment_search restation ap_station]. rn.
    rewrite Rleb_shift, IH. reflexivity. }
  rewrite Q. reflexivity.
Qed.

Lemma from_vector : forall p (a b c : R) w, PointXyzAlignmentFromVector (shift v p) a b c w =
  (shift v (fst (PointXyzAlignmentFromVector p a b c w)), snd (PointXyzAlignmentFromVector p a b c w)).
Proof.
  intros p a b c w. unfold PointXyzAlignmentFromVector, shift. cbn [fst snd p3x p3y p3z]. rn. f_equal. f_equal; rring.
Qed.
Lemma points_shift : forall a o, PointsAlignment (shift v o) (map restation a) = map (shift v) (PointsAlignment o a).
Proof.
  intros [|p a] o; [reflexivity|]. cbn [PointsAlignment map]. f_equal.
  generalize (mkVector2d (N := RNum) (fofZ 1) (fofZ 0)). revert p o.
  induction a as [|q a IH]; intros p o w; [reflexivity|]. cbn [map UpdatePointsXyzAlignment_loop].
  rewrite from_vector.
  assert (D : forall x y z : R, (x + z) - (y + z) = x - y) by (intros; ring).
  cbn [restation ap_station ap_elevation ap_rotation]. rn. rewrite !D.
  destruct (PointXyzAlignmentFromVector _ _ _ _ _) as [p' w'] eqn:E. cbn [fst snd map]. f_equal. apply IH.
Qed.
Lemma vector_shift : forall pts i, VectorXyAlignmentSegment (map (shift v) pts) i = VectorXyAlignmentSegment pts i.
Proof.
  intros pts i. unfold VectorXyAlignmentSegment. rewrite !vec_at_map.
  destruct (vec_at pts i) as [p| |]; [|reflexivity|reflexivity].
  destruct (vec_at pts (i + 1)) as [q| |]; [|reflexivity|reflexivity]. cbn [omap obind shift p3x p3y].
  assert (D : forall x y z : R, (x + z) - (y + z) = x - y) by (intros; ring). rn. rewrite !D. reflexivity.
Qed.
Lemma station_shift : forall (a : list (AlignmentPoint RNum)) (pts : list (Point3d RNum)) (x : R),
  same_outcome (fun p q => (IndexSegment a x = Ok (-1)%Z /\ p = Point3d_default /\ q = Point3d_default) \/ q = shift v p)
    (PointXyzAlignmentFromStation a pts x)
    (PointXyzAlignmentFromStation (map restation a) (map (shift v) pts) (x + s : R)).
Proof.
  intros a pts x. unfold PointXyzAlignmentFromStation. rewrite segment_shift.
  destruct (IndexSegment a x) as [i| |]; [|exact I|exact I]. cbn [obind].
  destruct (i =? -1)%Z eqn:Ei; [apply Z.eqb_eq in Ei; left; subst i; repeat split|].
  rewrite !vec_at_map. destruct (vec_at pts i) as [p| |]; [|exact I|exact I].
  destruct (vec_at pts (i + 1)) as [q| |]; [|exact I|exact I]. cbn [omap obind].
  rewrite !next_deref_map. destruct (next_deref a i) as [b| |]; [|exact I|exact I]. cbn [omap obind].
  cbn [restation ap_station]. rn. rewrite Reqb_shift. destruct (Reqb x (ap_station b)); [right; reflexivity|].
  destruct (next_deref a (i + 1)) as [c| |]; [|exact I|exact I]. cbn [omap obind].
  cbn [restation ap_station ap_elevation ap_rotation]. rn.
  rewrite Reqb_shift. destruct (Reqb x (ap_station c)); [right; reflexivity|].
  assert (D : forall x y z : R, (x + z) - (y + z) = x - y) by (intros; ring). rewrite !D, vector_shift.
  set (w := if (i =? 0)%Z then _ else _). destruct w as [w| |]; [|exact I|exact I]. cbn [obind].
  right. rewrite from_vector. reflexivity.
Qed.

Lemma station_moved : forall (a : list (AlignmentPoint RNum)) (pts : list (Point3d RNum)) (x : R),
  same_outcome (moved v) (PointXyzAlignmentFromStation a pts x)
    (PointXyzAlignmentFromStation (map restation a) (map (shift v) pts) (x + s : R)).
Proof.
  intros a pts x. assert (T := station_shift a pts x).
  destruct (PointXyzAlignmentFromStation a pts x), (PointXyzAlignmentFromStation _ _ _); try exact T.
  destruct T as [(_ & A & B)|T]; [right; split; assumption|left; exact T].
Qed.

Definition restructure (t : LineStructure RNum) : LineStructure RNum :=
  mkLS (N := RNum) (ls_hardwares t) (ls_height_adjustment t) (ls_offset t) (ls_rotation t) (ls_station t + s) (ls_structure t).

Lemma structures_shift : forall (a : list (AlignmentPoint RNum)) (pts : list (Point3d RNum)) ss ss', map snd ss' = map (fun n => restructure (snd n)) ss ->
  let x := UpdatePointsXyzLineStructures_loop a pts ss in
  let y := UpdatePointsXyzLineStructures_loop (map restation a) (map (shift v) pts) ss' in
  Forall2 (moved v) (fst x) (fst y) /\ snd y = snd x.
Proof.
  intros a pts. induction ss as [|[i t] ss IH]; intros [|[j t'] ss'] E; try discriminate E.
  - split; [constructor|reflexivity].
  - cbn [map snd] in E. injection E as E1 E2. specialize (IH ss' E2). subst t'. cbv zeta in *.
    cbn [UpdatePointsXyzLineStructures_loop]. cbn [restructure ls_station].
    assert (T := station_moved a pts (ls_station t)).
    destruct (PointXyzAlignmentFromStation a pts (ls_station t)) as [p| |],
      (PointXyzAlignmentFromStation (map restation a) (map (shift v) pts) (ls_station t + s : R)) as [q| |];
      cbn [same_outcome] in T; try contradiction T; try (split; [constructor|reflexivity]).
    destruct (UpdatePointsXyzLineStructures_loop a pts ss) as [x r],
      (UpdatePointsXyzLineStructures_loop (map restation a) (map (shift v) pts) ss') as [y r'].
    cbn [fst snd] in *. destruct IH as (IH & ->). split; [constructor; assumption|reflexivity].
Qed.

(** The points are moved unless the structure is off the alignment. *)
Lemma structures_exact : forall (a : list (AlignmentPoint RNum)) (pts : list (Point3d RNum)) ss ss', map snd ss' = map (fun n => restructure (snd n)) ss ->
  forall k n p q, nth_error ss k = Some n ->
  nth_error (fst (UpdatePointsXyzLineStructures_loop a pts ss)) k = Some p ->
  nth_error (fst (UpdatePointsXyzLineStructures_loop (map restation a) (map (shift v) pts) ss')) k = Some q ->
  IndexSegment a (ls_station (snd n)) = Ok (-1)%Z \/ q = shift v p.
Proof.
  intros a pts. induction ss as [|[i t] ss IH]; intros [|[j t'] ss'] E; try discriminate E.
  - intros [|k] n p q H; discriminate H.
  - cbn [map snd] in E. injection E as E1 E2. specialize (IH ss' E2). subst t'.
    intros k n p q. cbn [UpdatePointsXyzLineStructures_loop]. cbn [restructure ls_station].
    assert (T := station_shift a pts (ls_station t)).
    destruct (PointXyzAlignmentFromStation a pts (ls_station t)) as [p0| |],
      (PointXyzAlignmentFromStation (map restation a) (map (shift v) pts) (ls_station t + s : R)) as [q0| |];
      try contradiction T; try (intros _ H; destruct k; discriminate H).
    destruct (UpdatePointsXyzLineStructures_loop a pts ss) as [x r],
      (UpdatePointsXyzLineStructures_loop (map restation a) (map (shift v) pts) ss') as [y r'].
    cbn [fst] in *. destruct k as [|k]; cbn [nth_error]; [|apply IH].
    intros H1 H2 H3. injection H1 as <-. injection H2 as <-. injection H3 as <-.
    destruct T as [(T & _)|T]; [left|right]; exact T.
Qed.
Lemma same_outcome_vec : forall l l' i, Forall2 (moved v) l l' -> same_outcome (moved v) (vec_at l i) (vec_at l' i).
Proof.
  intros l l' i F. unfold vec_at. destruct (i <? 0)%Z; [exact I|]. generalize (Z.to_nat i). intros n. revert n.
  induction F as [|p q l l' M F IH]; intros [|n]; cbn [nth_error]; try exact I; [exact M|apply IH].
Qed.
End Datum.

(** ** The queries *)
Section Queries.
Context {P : Type}.
Variables s e : R.
Variable v : Point3d RNum.
Variables l l' : @Line RNum P.
Hypothesis U : unanswered l.
Hypothesis U' : unanswered l'.
Hypothesis D : redrawn s e v l l'.

Let pts := PointsAlignment (tl_origin l) (tl_alignment l).
Let loop := UpdatePointsXyzLineStructures_loop (tl_alignment l) pts (tl_line_structures l).
Let pts' := PointsAlignment (tl_origin l') (tl_alignment l').
Let loop' := UpdatePointsXyzLineStructures_loop (tl_alignment l') pts' (tl_line_structures l').

Lemma pts_moved : pts' = map (shift v) pts.
Proof using D. unfold pts', pts. rewrite (rd_alignment _ _ _ _ _ D), (rd_origin _ _ _ _ _ D). apply points_shift. Qed.
Lemma loop_moved : Forall2 (moved v) (fst loop) (fst loop') /\ snd loop' = snd loop.
Proof using D.
  unfold loop, loop'. rewrite pts_moved, (rd_alignment _ _ _ _ _ D). apply structures_shift. apply (rd_structures _ _ _ _ _ D).
Qed.

(** A query on an unanswered line. *)
Lemma query_fresh : forall (m : @Line RNum P) A (fail : A) k, unanswered m ->
  let pts := PointsAlignment (tl_origin m) (tl_alignment m) in
  let loop := UpdatePointsXyzLineStructures_loop (tl_alignment m) pts (tl_line_structures m) in
  snd (query m fail k) =
  match snd loop with
  | Ok _ => k (with_flags (with_points m pts (fst loop)) true true)
  | Throw => Throw
  | UB => UB
  end.
Proof using.
  intros m A fail k (A1 & A2). cbv zeta. unfold query, IsUpdated. rewrite A1, A2. cbn [orb]. unfold Update. rewrite A1.
  cbn [tl_is_updated_structures with_flags]. rewrite A2. cbn [tl_alignment tl_points_alignment tl_line_structures with_flags with_points].
  destruct (UpdatePointsXyzLineStructures_loop (tl_alignment m) _ _) as [ps r]. cbn [fst snd].
  destruct r; reflexivity.
Qed.
Lemma query_moved : forall A B (f : A) (f' : B) (r : A -> B -> Prop) k k',
  (same_outcome r (k (with_flags (with_points l pts (fst loop)) true true))
                  (k' (with_flags (with_points l' pts' (fst loop')) true true))) ->
  same_outcome r (snd (query l f k)) (snd (query l' f' k')).
Proof using U U' D.
  intros A B f f' r k k' H. rewrite !query_fresh by assumption. cbv zeta. fold pts loop pts' loop'.
  destruct loop_moved as (_ & ->). destruct (snd loop); [exact H|exact I|exact I].
Qed.
Lemma moved_all : forall ps, Forall2 (moved v) ps (map (shift v) ps).
Proof using. induction ps; constructor; [left; reflexivity|assumption]. Qed.

Lemma datum_alignment : same_outcome (fun x y => y = option_map (map (shift v)) x)
  (snd (PointsXyzAlignment l)) (snd (PointsXyzAlignment l')).
Proof using U U' D.
  unfold PointsXyzAlignment. apply query_moved. cbn [same_outcome tl_points_alignment with_flags with_points].
  cbn [option_map]. rewrite pts_moved. reflexivity.
Qed.
Lemma datum_structures : same_outcome (moved_list v)
  (snd (PointsXyzLineStructures l)) (snd (PointsXyzLineStructures l')).
Proof using U U' D.
  unfold PointsXyzLineStructures. apply query_moved. cbn [same_outcome moved_list tl_points_structures with_flags with_points].
  apply loop_moved.
Qed.
Lemma datum_station : forall x : R, same_outcome (moved v)
  (snd (PointXyzAlignment l x)) (snd (PointXyzAlignment l' (x + s : R))).
Proof using U U' D.
  intros x. unfold PointXyzAlignment. apply query_moved. cbn [tl_points_alignment tl_alignment with_flags with_points].
  rewrite pts_moved, (rd_alignment _ _ _ _ _ D). apply station_moved.
Qed.
Lemma same_length : length (tl_line_structures l') = length (tl_line_structures l).
Proof using D.
  rewrite <- (map_length snd (tl_line_structures l')), (rd_structures _ _ _ _ _ D), map_length. reflexivity.
Qed.
Lemma datum_structure : forall i, same_outcome (moved v)
  (snd (PointXyzLineStructure l i)) (snd (PointXyzLineStructure l' i)).
Proof using U U' D.
  intros i. unfold PointXyzLineStructure. apply query_moved. unfold IsValidLineStructureIndex, valid_index.
  cbn [tl_line_structures tl_points_structures with_flags with_points]. rewrite same_length.
  destruct (negb _); [right; split; reflexivity|]. apply same_outcome_vec, loop_moved.
Qed.
Lemma vector_structure : forall t, VectorXyAlignmentStructure (tl_alignment l') pts' (restructure s t) =
  VectorXyAlignmentStructure (tl_alignment l) pts t.
Proof using D.
  intros t. unfold VectorXyAlignmentStructure. rewrite pts_moved, (rd_alignment _ _ _ _ _ D).
  fold (restation s e). cbn [restructure ls_station]. rewrite segment_shift, front_map, back_map.
  destruct (IndexSegment (tl_alignment l) (ls_station t)) as [i| |]; [|reflexivity|reflexivity]. cbn [obind].
  destruct (front (tl_alignment l)) as [f| |]; [|reflexivity|reflexivity].
  destruct (back (tl_alignment l)) as [b| |]; [|reflexivity|reflexivity]. cbn [omap obind restation ap_station].
  rn. rewrite !Reqb_shift, !vector_shift.
  assert (Q : existsb (fun p : AlignmentPoint RNum => Reqb (ls_station t + s) (ap_station p)) (map (restation s e) (tl_alignment l)) =
              existsb (fun p : AlignmentPoint RNum => Reqb (ls_station t) (ap_station p)) (tl_alignment l)).
  { induction (tl_alignment l) as [|p a IH]; [reflexivity|]. cbn [map existsb restation ap_station].
    rewrite Reqb_shift, IH. reflexivity. }
  rewrite Q. reflexivity.
Qed.
Lemma datum_attachment : forall i j, same_outcome (moved v)
  (snd (PointXyzLineStructureAttachment l i j)) (snd (PointXyzLineStructureAttachment l' i j)).
Proof using U U' D.
  intros i j. unfold PointXyzLineStructureAttachment. apply query_moved. unfold IsValidLineStructureIndex, valid_index.
  cbn [tl_line_structures tl_points_structures tl_points_alignment tl_alignment with_flags with_points]. rewrite same_length.
  destruct (negb _); [right; split; reflexivity|].
  assert (T : omap snd (next_deref (tl_line_structures l') i) =
              omap (fun n => restructure s (snd n)) (next_deref (tl_line_structures l) i)).
  { rewrite <- !next_deref_map. f_equal. apply (rd_structures _ _ _ _ _ D). }
  destruct (next_deref (tl_line_structures l) i) as [[n t]| |] eqn:En, (next_deref (tl_line_structures l') i) as [[n' t']| |];
    cbn [omap obind] in T; try discriminate T; try exact I.
  injection T as T. cbn [snd] in *. subst t'. cbn [obind snd].
  change (ls_structure (restructure s t)) with (ls_structure t). destruct (ls_structure t) as [st|]; [|exact I].
  destruct (negb (_ && _)); [right; split; reflexivity|].
  destruct (vec_at (st_attachments st) j) as [a| |]; [|exact I|exact I]. cbn [obind].
  rewrite vector_structure.
  change (ls_rotation (restructure s t)) with (ls_rotation t). change (ls_offset (restructure s t)) with (ls_offset t).
  change (ls_height_adjustment (restructure s t)) with (ls_height_adjustment t).
  destruct (VectorXyAlignmentStructure (tl_alignment l) pts t) as [va| |] eqn:VA; [|exact I|exact I]. cbn [obind].
  assert (S := same_outcome_vec v (fst loop) (fst loop') i (proj1 loop_moved)).
  destruct (vec_at (fst loop) i) as [p| |] eqn:Ep, (vec_at (fst loop') i) as [q| |] eqn:Eq; cbn [same_outcome] in S;
    try contradiction S; try exact I. cbn [obind same_outcome].
  destruct S as [-> | [-> ->]].
  - left. unfold shift. cbn [p3x p3y p3z]. rn. f_equal; rring.
  - left.
    assert (E : IndexSegment (tl_alignment l) (ls_station t) = Ok (-1)%Z \/ Point3d_default = shift v Point3d_default).
    { unfold vec_at in Ep, Eq. unfold next_deref in En. destruct (i <? 0)%Z; [discriminate Ep|].
      destruct (nth_error (fst loop) (Z.to_nat i)) as [p|] eqn:F1; [|discriminate Ep]. injection Ep as ->.
      destruct (nth_error (fst loop') (Z.to_nat i)) as [q|] eqn:F2; [|discriminate Eq]. injection Eq as ->.
      destruct (nth_error (tl_line_structures l) (Z.to_nat i)) as [n0|] eqn:F3; [|discriminate En]. injection En as ->.
      unfold loop' in F2. rewrite pts_moved, (rd_alignment _ _ _ _ _ D) in F2.
      exact (structures_exact s e v (tl_alignment l) pts _ _ (rd_structures _ _ _ _ _ D) _ _ _ _ F3 F1 F2). }
    destruct E as [E|E].
    + exfalso. unfold VectorXyAlignmentStructure in VA. rewrite E in VA. cbn [obind] in VA.
      destruct (front (tl_alignment l)); [|discriminate VA|discriminate VA].
      destruct (back (tl_alignment l)); [|discriminate VA|discriminate VA]. cbn [obind] in VA.
      destruct (_ || _); [discriminate VA|]. destruct (negb _); discriminate VA.
    + assert (X := f_equal p3x E). assert (Y := f_equal p3y E). assert (Z := f_equal p3z E).
      cbn [shift p3x p3y p3z Point3d_default] in X, Y, Z. unfold shift. cbn [p3x p3y p3z Point3d_default]. rn.
      change (F RNum) with R in *. f_equal; lra.
Qed.
End Queries.
