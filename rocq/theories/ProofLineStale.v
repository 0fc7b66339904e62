(** Lines whose coordinates are not cached answer from their content alone; in
    particular a copy of a line built without coordinate queries. *)
From Coq Require Import ZArith Bool List Lia.
From Verif Require Import Num NumFacts ModelBase ModelAlignment ModelLine SpecLine SpecTransmission
  ListFacts ProofAlignment ProofLine ProofLineInv ProofLineFacts ProofLineCoord ProofLineQuery
  ProofConn ProofLineCopy ProofLineContracts.
Import ListNotations.
Open Scope num_scope.

Section Stale.
Context {N : Num} (ok : N -> Prop) (OL : OrdLaws N ok) {P : Type}.
Implicit Types l : Line N P.

(** Everything a coordinate query can read after the update. *)
Definition visible l l' : Prop :=
  tl_alignment l' = tl_alignment l /\ tl_origin l' = tl_origin l /\ structures_of l' = structures_of l /\
  tl_points_alignment l' = tl_points_alignment l /\ tl_points_structures l' = tl_points_structures l.

Definition stale l : Prop := tl_is_updated_alignment l = false /\ tl_is_updated_structures l = false.

Lemma stale_update : forall l l', stale l -> stale l' ->
  tl_alignment l' = tl_alignment l -> tl_origin l' = tl_origin l -> structures_of l' = structures_of l ->
  snd (Update l') = snd (Update l) /\ visible (fst (Update l)) (fst (Update l')).
Proof.
  intros l l' [F1 F2] [F1' F2'] HA HO HS. unfold Update, visible.
  rewrite F1, F1'. cbn [tl_is_updated_structures with_flags]. rewrite F2, F2'.
  cbn [tl_alignment tl_points_alignment tl_line_structures with_flags with_points].
  rewrite HA, HO. unfold structures_of in *.
  rewrite (structures_loop_snd _ _ _ _ HS).
  destruct (UpdatePointsXyzLineStructures_loop _ _ (tl_line_structures l)) as [ps [u| |]];
    cbn; repeat split; auto.
Qed.

Lemma stale_query : forall A l l' (f : A) k, stale l -> stale l' ->
  tl_alignment l' = tl_alignment l -> tl_origin l' = tl_origin l -> structures_of l' = structures_of l ->
  (forall m m', visible m m' -> k m' = k m) ->
  snd (query l' f k) = snd (query l f k).
Proof.
  intros A l l' f k S S' HA HO HS K.
  destruct (stale_update l l' S S' HA HO HS) as [E V].
  unfold query, IsUpdated. destruct S as [F1 F2], S' as [F1' F2']. rewrite F1, F2, F1', F2'. cbn [orb].
  destruct (Update l) as [m r], (Update l') as [m' r']. cbn [fst snd] in *. subst r'.
  destruct r as [[|]| |]; cbn [snd]; auto.
Qed.

Lemma visible_length : forall l l', visible l l' -> length (tl_line_structures l') = length (tl_line_structures l).
Proof.
  intros l l' (_ & _ & H & _). unfold structures_of in H.
  rewrite <- (map_length snd), H, map_length. reflexivity.
Qed.

Lemma stale_answers : forall l l', stale l -> stale l' ->
  tl_alignment l' = tl_alignment l -> tl_origin l' = tl_origin l -> structures_of l' = structures_of l ->
  snd (PointsXyzAlignment l') = snd (PointsXyzAlignment l) /\
  snd (PointsXyzLineStructures l') = snd (PointsXyzLineStructures l) /\
  (forall st, snd (PointXyzAlignment l' st) = snd (PointXyzAlignment l st)) /\
  (forall i, snd (PointXyzLineStructure l' i) = snd (PointXyzLineStructure l i)) /\
  (forall i j, snd (PointXyzLineStructureAttachment l' i j) = snd (PointXyzLineStructureAttachment l i j)).
Proof.
  intros l l' S S' HA HO HS.
  split; [|split; [|split; [|split]]]; intros; apply stale_query; auto; intros m m' V;
    assert (VL := visible_length m m' V); destruct V as (VA & VO & VS & VP & VQ).
  - rewrite VP. reflexivity.
  - rewrite VQ. reflexivity.
  - rewrite VA, VP. reflexivity.
  - unfold IsValidLineStructureIndex, valid_index. rewrite VL, VQ. reflexivity.
  - unfold IsValidLineStructureIndex.
    replace (valid_index (tl_line_structures m') i) with (valid_index (tl_line_structures m) i)
      by (unfold valid_index; rewrite VL; reflexivity).
    destruct (valid_index (tl_line_structures m) i) eqn:EV; [|reflexivity]. cbn [negb].
    unfold next_deref.
    assert (EN : omap snd (match nth_error (tl_line_structures m') (Z.to_nat i) with Some x => Ok x | None => UB end)
               = omap snd (match nth_error (tl_line_structures m) (Z.to_nat i) with Some x => Ok x | None => UB end)).
    { unfold structures_of in VS. apply (f_equal (fun x => nth_error x (Z.to_nat i))) in VS.
      rewrite !nth_error_map in VS.
      destruct (nth_error (tl_line_structures m') (Z.to_nat i)), (nth_error (tl_line_structures m) (Z.to_nat i));
        simpl in *; congruence. }
    rewrite VA, VP, VQ.
    destruct (i <? 0)%Z; [reflexivity|].
    destruct (nth_error (tl_line_structures m') (Z.to_nat i)) as [n'|],
      (nth_error (tl_line_structures m) (Z.to_nat i)) as [n|]; simpl in EN; try discriminate; [|reflexivity].
    injection EN as EN. cbn [obind]. rewrite EN. reflexivity.
Qed.

Lemma fresh_run_stale : forall calls l l', stale l -> (forall c, In c calls -> is_query c = false) ->
  line_run_from l calls = Some l' -> stale l'.
Proof.
  intros calls l l' [F1 F2] H R.
  destruct (nonquery_run_flags calls l l') as [A B]; auto; [|split; auto].
  apply Forall_forall. exact H.
Qed.

Lemma fresh_stale : forall l, fresh_line l -> stale l.
Proof.
  intros l (calls & H & R). apply (fresh_run_stale calls Line_empty l); auto. split; reflexivity.
Qed.

(** A copy of a line that was never asked for coordinates answers like it. *)
Lemma copy_answers : forall l l', fresh_line l -> constructible ok l -> copy l = Ok l' ->
  snd (PointsXyzAlignment l') = snd (PointsXyzAlignment l) /\
  snd (PointsXyzLineStructures l') = snd (PointsXyzLineStructures l) /\
  (forall st, snd (PointXyzAlignment l' st) = snd (PointXyzAlignment l st)) /\
  (forall i, snd (PointXyzLineStructure l' i) = snd (PointXyzLineStructure l i)) /\
  (forall i j, snd (PointXyzLineStructureAttachment l' i j) = snd (PointXyzLineStructureAttachment l i j)).
Proof.
  intros l l' HF HC HK.
  destruct (assign_content ok OL Line_empty l (constructible_Inv ok OL l HC)) as (m & E & A & O & S & _).
  unfold copy in HK. rewrite E in HK. injection HK as ->.
  assert (ST := fresh_stale l HF).
  apply stale_answers; auto.
  unfold assign in E.
  destruct (copy_cables l _ _ (tl_line_cables l)); cbn [obind] in E; try discriminate.
  injection E as <-. exact ST.
Qed.
End Stale.
