(** Cached coordinates of the transmission line. *)
From Coq Require Import ZArith Bool List Lia Sorted Permutation.
From Verif Require Import Num ModelBase ModelAlignment ModelLine SpecLine ListFacts ProofAlignment
  SpecTransmission ProofLine ProofLineInv ProofLineFacts.
Import ListNotations.
Open Scope num_scope.

Section P.
Context {N : Num} {P : Type}.
Implicit Types l : Line N P.
Implicit Types env structs : Env N.

(** What a call that does not touch the coordinates keeps. *)
Definition pframe l l' : Prop :=
  tl_alignment l' = tl_alignment l /\ tl_origin l' = tl_origin l /\
  tl_is_updated_alignment l' = tl_is_updated_alignment l /\
  tl_is_updated_structures l' = tl_is_updated_structures l /\
  tl_points_alignment l' = tl_points_alignment l /\
  tl_points_structures l' = tl_points_structures l.

Lemma pframe_refl : forall l, pframe l l.
Proof. repeat split. Qed.

Lemma pframe_trans : forall l1 l2 l3, pframe l1 l2 -> pframe l2 l3 -> pframe l1 l3.
Proof. unfold pframe. intuition congruence. Qed.

Lemma delete_cables_pframe : forall l l' r, line_DeleteInvalidLineCables l = (l', r) ->
  pframe l l' /\ tl_line_structures l' = tl_line_structures l.
Proof.
  unfold line_DeleteInvalidLineCables. intros l l' r H.
  destruct (DeleteInvalidLineCables _ _). inversion H; subst. split; [repeat split|auto].
Qed.

Lemma cleanup_pframe : forall A l (v : A) l' r, cleanup l v = (l', r) ->
  pframe l l' /\ sub (tl_line_structures l') (tl_line_structures l).
Proof.
  intros A l v l' r H. unfold cleanup, DeleteInvalidLineStructures in H.
  destruct (front (tl_alignment l)); try (inversion H; subst; split; [apply pframe_refl|apply sub_refl]).
  destruct (back (tl_alignment l)); try (inversion H; subst; split; [apply pframe_refl|apply sub_refl]).
  rewrite delete_structs_loop in H.
  set (l1 := with_cables _ _) in H.
  destruct (line_DeleteInvalidLineCables l1) as [l2 r2] eqn:E. apply delete_cables_pframe in E as [E1 E2].
  assert (K : l' = l2) by (destruct r2; inversion H; auto). subst l2. split.
  - eapply pframe_trans; [|exact E1]. repeat split.
  - rewrite E2. simpl. apply sub_filter.
Qed.

Definition Inv2 l : Prop :=
  (tl_is_updated_structures l = true -> tl_is_updated_alignment l = true) /\
  (tl_is_updated_alignment l = true -> tl_points_alignment l = PointsAlignment (tl_origin l) (tl_alignment l)) /\
  (tl_line_structures l <> [] -> tl_alignment l <> []).

Lemma Inv2_empty : Inv2 Line_empty.
Proof. repeat split; simpl; try discriminate; congruence. Qed.

Lemma sub_nonempty : forall A (a b : list A), sub a b -> a <> [] -> b <> [].
Proof. intros A a b H Ha. destruct H; congruence. Qed.

Lemma Update_Inv2 : forall l l' r, Inv2 l -> Update l = (l', r) ->
  Inv2 l' /\ tl_is_updated_alignment l' = true.
Proof.
  intros l l' r (I1 & I2 & I3) H. unfold Update in H.
  set (l1 := if tl_is_updated_alignment l then l else _) in H.
  assert (K : Inv2 l1 /\ tl_is_updated_alignment l1 = true /\ tl_alignment l1 = tl_alignment l).
  { unfold l1. destruct (tl_is_updated_alignment l) eqn:E; [repeat split; auto|].
    repeat split; simpl; auto. }
  destruct K as ((K1 & K2 & K3) & K4 & K5). clearbody l1.
  destruct (tl_is_updated_structures l1) eqn:E.
  - inversion H; subst. repeat split; auto.
  - destruct (UpdatePointsXyzLineStructures_loop _ _ _) as [ps [| |]]; inversion H; subst;
      repeat split; simpl; auto; congruence.
Qed.

Lemma query_Inv2 : forall A l (f : A) k l' r, Inv2 l -> query l f k = (l', r) ->
  Inv2 l' /\ tl_is_updated_alignment l' = true.
Proof.
  intros A l f k l' r HI H. unfold query in H.
  destruct (IsUpdated l) eqn:E.
  - inversion H; subst. split; auto. unfold IsUpdated in E. apply orb_true_iff in E as [E|E]; auto.
    apply HI; auto.
  - destruct (Update l) as [l1 r1] eqn:EU. assert (l1 = l') as <- by (destruct r1 as [[]| |]; inversion H; auto).
    eapply Update_Inv2; eauto.
Qed.

Lemma pframe_Inv2 : forall l l', pframe l l' -> (tl_line_structures l' <> [] -> tl_line_structures l <> []) ->
  Inv2 l -> Inv2 l'.
Proof.
  intros l l' (A & B & C & D & E & F) K (I1 & I2 & I3). unfold Inv2. rewrite A, B, C, D, E. auto.
Qed.

Lemma cables_pframe : forall l c, pframe l (with_cables l c).
Proof. repeat split. Qed.

Lemma AddLineCable_pframe : forall l lc l' r, AddLineCable l lc = (l', r) ->
  pframe l l' /\ tl_line_structures l' = tl_line_structures l.
Proof.
  intros l lc l' r H. apply AddLineCable_cases in H as [[-> _]|(pos & _ & -> & _)];
    split; auto using pframe_refl, cables_pframe.
Qed.

Lemma DeleteLineCable_pframe : forall l i l' r, DeleteLineCable l i = (l', r) ->
  pframe l l' /\ tl_line_structures l' = tl_line_structures l.
Proof.
  intros l i l' r H. apply DeleteLineCable_cases in H as [(-> & _)|(_ & _ & ->)];
    split; auto using pframe_refl, cables_pframe.
Qed.

Lemma ModifyLineCable_pframe : forall l i lc l' r, ModifyLineCable l i lc = (l', r) ->
  pframe l l' /\ tl_line_structures l' = tl_line_structures l.
Proof.
  intros l i lc l' r H. unfold ModifyLineCable in H.
  destruct (negb _); [inversion H; subst; split; auto using pframe_refl|].
  destruct (next_deref _ _) as [cache| |]; try (inversion H; subst; split; auto using pframe_refl; fail).
  destruct (DeleteLineCable l i) as [l1 r1] eqn:E1. apply DeleteLineCable_pframe in E1 as [E1 E1'].
  destruct r1 as [[]| |]; try (inversion H; subst; split; auto; fail).
  destruct (AddLineCable l1 lc) as [l2 r2] eqn:E2. apply AddLineCable_pframe in E2 as [E2 E2'].
  assert (K : pframe l l2 /\ tl_line_structures l2 = tl_line_structures l).
  { split; [eapply pframe_trans; eauto|congruence]. }
  destruct r2 as [j| |]; try (inversion H; subst; exact K).
  destruct (j =? -1)%Z; [|inversion H; subst; exact K].
  destruct (AddLineCable l2 cache) as [l3 r3] eqn:E3. apply AddLineCable_pframe in E3 as [E3 E3'].
  assert (l3 = l') as <- by (destruct r3; inversion H; auto).
  split; [eapply pframe_trans; [apply K|exact E3]|destruct K; congruence].
Qed.

Lemma stale_structures_Inv2 : forall l, Inv2 l -> Inv2 (stale_structures l).
Proof. intros l (I1 & I2 & I3). repeat split; simpl; auto; discriminate. Qed.

Lemma flags_Inv2 : forall l, tl_is_updated_alignment l = false -> tl_is_updated_structures l = false ->
  (tl_line_structures l <> [] -> tl_alignment l <> []) -> Inv2 l.
Proof. intros l A B C. unfold Inv2. rewrite A, B. repeat split; auto; discriminate. Qed.

Lemma AddPoint_nonempty : forall pts (p : AlignmentPoint N), pts <> [] -> fst (AddPoint pts p) <> [].
Proof.
  intros pts p H. unfold AddPoint. destruct (AddPoint_search _ _ _); simpl; auto.
  unfold insert_at. destruct (firstn n pts); discriminate.
Qed.

Lemma AddPoint_ok_nonempty : forall pts (p : AlignmentPoint N), snd (AddPoint pts p) <> (-1)%Z ->
  fst (AddPoint pts p) <> [].
Proof.
  intros pts p. unfold AddPoint. destruct (AddPoint_search _ _ _) as [n|]; simpl; [|congruence].
  intros _. unfold insert_at. destruct (firstn n pts); discriminate.
Qed.

(** Flags and points after the calls that edit the alignment. *)
Lemma alignment_edit_flags : forall l c l' r, is_alignment_edit c = true -> line_step l c = (l', r) ->
  tl_is_updated_alignment l' = false /\ tl_is_updated_structures l' = false.
Proof.
  intros l c l' r Hc H. destruct c; try discriminate; simpl in H.
  - apply drop_eq in H as (r0 & H & _). unfold AddAlignmentPoint in H.
    destruct (AddPoint _ p). inversion H; subst. auto.
  - apply drop_eq in H as (r0 & H & _). unfold DeleteAlignmentPoint in H.
    destruct (DeletePoint _ index) as [a d].
    destruct (d && _).
    + apply cleanup_pframe in H as [(_ & _ & A & B & _) _]. rewrite A, B. auto.
    + inversion H; subst; auto.
  - apply drop_eq in H as (r0 & H & _). unfold ModifyAlignmentPoint in H.
    destruct (ModifyPoint _ index p) as [a d].
    destruct (negb (d =? -1)%Z && _).
    + apply cleanup_pframe in H as [(_ & _ & A & B & _) _]. rewrite A, B. auto.
    + inversion H; subst; auto.
  - inversion H; subst. auto.
Qed.

Lemma cleanup_nonempty : forall A l (v : A) l' r, cleanup l v = (l', r) -> r <> UB -> tl_alignment l' <> [].
Proof.
  intros A l v l' r H Hr. assert (K := cleanup_pframe _ _ _ _ _ H). destruct K as [[K _] _]. rewrite K.
  intros E. unfold cleanup, DeleteInvalidLineStructures in H. rewrite E in H. simpl in H.
  inversion H; congruence.
Qed.

Lemma remove_at_empty : forall A n (m : list A), (n < length m)%nat -> remove_at n m = [] -> length m = 1%nat.
Proof. intros A n m H E. apply (f_equal (@length A)) in E. pose proof (remove_at_length n m H). simpl in E. lia. Qed.

Lemma ModifyPoint_nonempty : forall pts i (p : AlignmentPoint N), pts <> [] -> fst (ModifyPoint pts i p) <> [].
Proof.
  intros pts i p H. unfold ModifyPoint. destruct (valid_index pts i) eqn:E; simpl; auto.
  unfold DeletePoint. rewrite E. cbn [negb].
  set (q := nth _ _ _). set (pts1 := remove_at _ _).
  destruct (AddPoint pts1 p) as [pts2 st] eqn:E2.
  destruct (Z.eqb_spec st (-1)) as [Es|Es]; cbn [fst].
  - assert (K : pts1 <> []).
    { intros K. rewrite K in E2. unfold AddPoint in E2. simpl in E2. inversion E2. congruence. }
    assert (pts2 = pts1) as ->.
    { assert (Q := AddPoint_fail_same pts1 p). rewrite E2 in Q. simpl in Q. auto. }
    apply AddPoint_nonempty; auto.
  - assert (Q := AddPoint_ok_nonempty pts1 p). rewrite E2 in Q. auto.
Qed.

Lemma step_Inv2 : forall l c l' r, Inv2 l -> line_step l c = (l', r) -> r <> UB -> Inv2 l'.
Proof.
  intros l c l' r HI H Hr. assert (H0 := H).
  destruct c; simpl in H;
    try (apply drop_eq in H as (r0 & H & ->); apply omap_UB in Hr).
  - apply alignment_edit_flags in H0 as [A B]; auto. apply flags_Inv2; auto.
    unfold AddAlignmentPoint in H. assert (K := AddPoint_nonempty (tl_alignment l) p).
    simpl in H. destruct (AddPoint (tl_alignment l) p). inversion H; subst. simpl in *.
    destruct HI as (_ & _ & I3). auto.
  - destruct (build_cable _ _ _); [|inversion H; subst; auto|inversion H; subst; congruence].
    apply drop_eq in H as (r0 & H & ->). apply AddLineCable_pframe in H as [H H'].
    eapply pframe_Inv2; eauto. rewrite H'; auto.
  - apply AddLineStructure_cases in H as [[-> _]|(pos & _ & V & _ & ->)].
    + apply stale_structures_Inv2; auto.
    + destruct HI as (I1 & I2 & I3). repeat split; simpl; auto; try discriminate.
      intros _ E. rewrite E in V. discriminate.
  - apply alignment_edit_flags in H0 as [A B]; auto. apply flags_Inv2; auto.
    unfold DeleteAlignmentPoint in H. simpl in H.
    unfold DeletePoint in H. destruct (valid_index (tl_alignment l) index) eqn:E; cbn [andb] in H.
    + destruct (is_boundary_point (tl_alignment l) index) eqn:EB.
      * intros _. eapply cleanup_nonempty; eauto.
      * inversion H; subst. simpl. intros _ K. apply remove_at_empty in K.
        -- unfold is_boundary_point in EB. rewrite K in EB. apply valid_index_true in E.
           apply orb_false_iff in EB as [EB _]. apply Z.eqb_neq in EB. lia.
        -- apply valid_index_true in E. lia.
    + inversion H; subst. simpl. apply HI.
  - apply DeleteLineCable_pframe in H as [H H']. eapply pframe_Inv2; eauto. rewrite H'; auto.
  - unfold DeleteLineStructure in H.
    destruct (negb _); [inversion H; subst; apply stale_structures_Inv2; auto|].
    destruct (next_deref _ _) as [[id s]| |]; try (inversion H; subst; apply stale_structures_Inv2; auto; fail).
    destruct (line_DeleteInvalidLineCables _) as [l2 r2] eqn:E.
    apply delete_cables_pframe in E as [E E'].
    assert (K : Inv2 l2).
    { eapply pframe_Inv2; [exact E| |].
      - rewrite E'; auto.
      - eapply pframe_Inv2; [apply cables_pframe| |]; [auto|]. apply stale_structures_Inv2; auto. }
    destruct r2; inversion H; subst; auto.
    destruct K as (K1 & K2 & K3). repeat split; simpl; auto. intros Q. apply K3.
    intros Q'. apply Q. rewrite Q'. unfold remove_at. rewrite firstn_nil, skipn_nil. auto.
  - apply alignment_edit_flags in H0 as [A B]; auto. apply flags_Inv2; auto.
    unfold ModifyAlignmentPoint in H. simpl in H.
    assert (K := ModifyPoint_nonempty (tl_alignment l) index p).
    destruct (ModifyPoint (tl_alignment l) index p) as [a d].
    destruct (negb (d =? -1)%Z && _).
    + intros _. eapply cleanup_nonempty; eauto.
    + inversion H; subst. simpl in *. destruct HI as (_ & _ & I3). auto.
  - destruct (build_cable _ _ _); [|inversion H; subst; auto|inversion H; subst; congruence].
    apply drop_eq in H as (r0 & H & ->). apply ModifyLineCable_pframe in H as [H H'].
    eapply pframe_Inv2; eauto. rewrite H'; auto.
  - apply ModifyLineStructure_cases in H as [[-> _]|H]; auto.
    + apply stale_structures_Inv2; auto.
    + destruct H as (id & s0 & st & Hi & Hn & _ & _ & _ & _ & _ & H). cbn zeta in H.
      destruct H as (c'' & r' & _ & _ & ->).
      destruct HI as (I1 & I2 & I3). repeat split; simpl; auto; try discriminate.
      intros _. apply I3. intros Q. rewrite Q in Hn. destruct (Z.to_nat index); discriminate.
  - inversion H; subst. apply flags_Inv2; auto. simpl. apply HI.
  - eapply query_Inv2; eauto.
  - eapply query_Inv2; eauto.
  - eapply query_Inv2; eauto.
  - eapply query_Inv2; eauto.
  - eapply query_Inv2; eauto.
  - inversion H; subst. auto.
  - unfold Line_Validate in H. destruct parts; try (inversion H; subst; auto; fail).
    destruct (Update l) as [l1 r1] eqn:E. assert (l1 = l') as <- by (destruct r1; inversion H; auto).
    eapply Update_Inv2; eauto.
Qed.

Lemma run_from_Inv2 : forall calls l l', Inv2 l -> line_run_from l calls = Some l' -> Inv2 l'.
Proof.
  induction calls as [|c calls IH]; intros l l' HI H; simpl in H; [inversion H; subst; auto|].
  destruct (line_step l c) as [l1 r] eqn:E. destruct r as [u| |]; try discriminate.
  - apply (IH l1); auto. eapply step_Inv2; eauto. discriminate.
  - apply (IH l1); auto. eapply step_Inv2; eauto. discriminate.
Qed.

Lemma run_Inv2 : forall calls l, line_run calls = Some l -> Inv2 l.
Proof. intros calls l H. eapply run_from_Inv2; eauto using Inv2_empty. Qed.

(** ** Points from stations *)
Lemma loop_length : forall pts a p v,
  length (UpdatePointsXyzAlignment_loop (N := N) a p v pts) = length pts.
Proof.
  induction pts as [|b pts IH]; intros a p v; auto.
  cbn [UpdatePointsXyzAlignment_loop]. destruct (PointXyzAlignmentFromVector _ _ _ _ _).
  cbn [length]. rewrite IH. auto.
Qed.

Lemma PointsAlignment_length : forall o (a : list (AlignmentPoint N)),
  length (PointsAlignment o a) = length a.
Proof. intros o [|p a]; auto. unfold PointsAlignment. cbn [length]. rewrite loop_length. auto. Qed.

Lemma IndexSegment_search_le : forall (st : N) a k, (k <= IndexSegment_search st a k <= k + length a)%nat.
Proof.
  intros st. induction a as [|p a IH]; intros k; simpl; [lia|].
  destruct (st <=? ap_station p); [lia|]. specialize (IH (S k)). lia.
Qed.

Lemma IndexSegment_range : forall a (st : N), a <> [] ->
  exists i, IndexSegment a st = Ok i /\ (-1 <= i <= Z.of_nat (length a) - 1)%Z.
Proof.
  intros a st H. unfold IndexSegment, IsValidStation. destruct a as [|p a]; [congruence|].
  cbn [front back obind]. destruct (negb _); [exists (-1)%Z; split; auto; lia|].
  destruct (st =? ap_station p).
  - exists 0%Z. split; auto. cbn [length]. lia.
  - eexists. split; [reflexivity|]. assert (K := IndexSegment_search_le st (p :: a) 0). lia.
Qed.

Lemma vec_at_UB : forall A (m : list A) i, vec_at m i <> UB.
Proof. intros A m i. unfold vec_at. destruct (i <? 0)%Z; [discriminate|]. destruct (nth_error _ _); discriminate. Qed.

Lemma next_deref_in : forall A (m : list A) i, (0 <= i < Z.of_nat (length m))%Z ->
  exists x, next_deref m i = Ok x /\ nth_error m (Z.to_nat i) = Some x.
Proof.
  intros A m i H. unfold next_deref. destruct (Z.ltb_spec i 0); [lia|].
  destruct (nth_error m (Z.to_nat i)) eqn:E; eauto. apply nth_error_None in E. lia.
Qed.

Lemma segment_UB : forall pts i, VectorXyAlignmentSegment (N := N) pts i <> UB.
Proof.
  intros pts i. unfold VectorXyAlignmentSegment.
  destruct (vec_at pts i) eqn:E; [|discriminate|apply vec_at_UB in E; contradiction].
  cbn [obind]. destruct (vec_at pts (i + 1)) eqn:E'; [discriminate|discriminate|apply vec_at_UB in E'; contradiction].
Qed.

Lemma segment_ok : forall (pts : list (Point3d N)) i, (0 <= i < Z.of_nat (length pts) - 1)%Z ->
  exists v, VectorXyAlignmentSegment pts i = Ok v.
Proof.
  intros pts i H. unfold VectorXyAlignmentSegment.
  destruct (vec_at_range _ pts i) as [a ->]; [lia|].
  destruct (vec_at_range _ pts (i + 1)) as [b ->]; [lia|]. eexists. reflexivity.
Qed.

Lemma FromStation_UB : forall a pts (st : N), a <> [] -> (length pts <= length a)%nat ->
  PointXyzAlignmentFromStation a pts st <> UB.
Proof.
  intros a pts st Ha HL. unfold PointXyzAlignmentFromStation.
  destruct (IndexSegment_range a st Ha) as (i & -> & Hi). cbn [obind].
  destruct (Z.eqb_spec i (-1)) as [Ei|Ei]; [discriminate|].
  destruct (vec_at pts i) as [b| |] eqn:E1; cbn [obind]; [|discriminate|apply vec_at_UB in E1; contradiction].
  destruct (vec_at pts (i + 1)) as [c| |] eqn:E2; cbn [obind]; [|discriminate|apply vec_at_UB in E2; contradiction].
  apply vec_at_ok_range in E2 as [E2 _].
  destruct (next_deref_in _ a i) as (x & -> & _); [lia|]. cbn [obind].
  destruct (st =? ap_station x); [discriminate|].
  destruct (next_deref_in _ a (i + 1)) as (y & -> & _); [lia|]. cbn [obind].
  destruct (st =? ap_station y); [discriminate|].
  destruct (i =? 0)%Z; cbn [obind]; [discriminate|].
  destruct (VectorXyAlignmentSegment pts (i - 1)) eqn:E; cbn [obind]; try discriminate.
  apply segment_UB in E. contradiction.
Qed.

Lemma structures_loop_UB : forall a pts structs, (structs <> [] -> a <> []) -> (length pts <= length a)%nat ->
  snd (UpdatePointsXyzLineStructures_loop a pts structs) <> UB.
Proof.
  intros a pts structs. induction structs as [|[id s] structs IH]; intros Ha HL; simpl; [discriminate|].
  destruct (PointXyzAlignmentFromStation a pts (ls_station s)) eqn:E; simpl; try discriminate.
  - specialize (IH ltac:(intros; apply Ha; discriminate) HL).
    destruct (UpdatePointsXyzLineStructures_loop a pts structs). exact IH.
  - exfalso. revert E. apply FromStation_UB; auto. apply Ha. discriminate.
Qed.

Lemma Update_UB : forall l l' r, Inv2 l -> Update l = (l', r) -> r <> UB.
Proof.
  intros l l' r (I1 & I2 & I3) H. unfold Update in H.
  set (l1 := if tl_is_updated_alignment l then l else _) in H.
  assert (K : length (tl_points_alignment l1) = length (tl_alignment l1) /\
              (tl_line_structures l1 <> [] -> tl_alignment l1 <> [])).
  { unfold l1. destruct (tl_is_updated_alignment l) eqn:E.
    - rewrite I2 by auto. rewrite PointsAlignment_length. auto.
    - simpl. rewrite PointsAlignment_length. auto. }
  destruct K as [K1 K2]. clearbody l1.
  destruct (tl_is_updated_structures l1); [inversion H; discriminate|].
  assert (Q := structures_loop_UB (tl_alignment l1) (tl_points_alignment l1) (tl_line_structures l1) K2 ltac:(lia)).
  destruct (UpdatePointsXyzLineStructures_loop _ _ _) as [ps [| |]]; inversion H; subst; try discriminate.
  simpl in Q; congruence.
Qed.

(** What the body of a query sees: the alignment points are current. *)
Lemma query_body : forall A l (f : A) k l' r, Inv2 l -> query l f k = (l', r) ->
  same_content l l' /\ tl_origin l' = tl_origin l /\
  tl_points_alignment l' = PointsAlignment (tl_origin l) (tl_alignment l) /\
  (r = k l' \/ (r = Throw /\ snd (Update l) = Throw)).
Proof.
  intros A l f k l' r HI H.
  assert (K := query_Inv2 _ _ _ _ _ _ HI H). destruct K as [(_ & K & _) Ka]. specialize (K Ka).
  assert (Q := query_content _ _ _ _ _ _ H). destruct Q as (Q1 & _ & Q2).
  split; auto. split; auto. assert (Q1' := Q1). destruct Q1' as (Qa & _). rewrite Q2, Qa in K. split; auto.
  unfold query in H. destruct (IsUpdated l); [inversion H; subst; auto|].
  destruct (Update l) as [l1 r1] eqn:EU. assert (U := Update_UB _ _ _ HI EU).
  destruct r1 as [[]| |]; inversion H; subst; auto; try congruence.
  exfalso. unfold Update in EU.
  destruct (tl_is_updated_structures _); [inversion EU|].
  destruct (UpdatePointsXyzLineStructures_loop _ _ _) as [ps [| |]]; inversion EU.
Qed.

Lemma alignment_points_current : forall l v, Inv2 l -> snd (PointsXyzAlignment l) = Ok v ->
  v = Some (PointsAlignment (tl_origin l) (tl_alignment l)).
Proof.
  intros l v HI H. unfold PointsXyzAlignment in H.
  destruct (query l None _) as [l' r] eqn:E. simpl in H. subst r.
  apply query_body in E as (_ & _ & K & [E|[E _]]); auto; inversion E. congruence.
Qed.

Lemma alignment_point_current : forall l st v, Inv2 l -> snd (PointXyzAlignment l st) = Ok v ->
  Ok v = PointXyzAlignmentFromStation (tl_alignment l) (PointsAlignment (tl_origin l) (tl_alignment l)) st.
Proof.
  intros l st v HI H. unfold PointXyzAlignment in H.
  destruct (query l _ _) as [l' r] eqn:E. simpl in H. subst r.
  apply query_body in E as ((S & _) & _ & K & [E|[E _]]); auto; inversion E. congruence.
Qed.

End P.

Section Q.
Context {N : Num} (ok : N -> Prop) (OL : OrdLaws N ok) {P : Type}.
Implicit Types l : Line N P.
Implicit Types env structs : Env N.

Lemma nth_error_exists : forall A (m : list A) n, (n < length m)%nat -> exists x, nth_error m n = Some x.
Proof. intros A m n H. destruct (nth_error m n) eqn:E; eauto. apply nth_error_None in E. lia. Qed.

Lemma FromStation_ok : forall a pts st, sorted_pts ok a -> ok st -> (2 <= length a)%nat ->
  length pts = length a -> exists p, PointXyzAlignmentFromStation a pts st = Ok p.
Proof.
  intros a pts st HS Hst H2 HL.
  destruct (nth_error_exists _ a 0) as [pf Hf]; [lia|].
  destruct (nth_error_exists _ a (length a - 1)) as [pl Hl]; [lia|].
  destruct (IndexSegment_spec ok OL a st pf pl HS Hst H2 Hf Hl) as (i & E & _ & K).
  unfold PointXyzAlignmentFromStation. rewrite E. cbn [obind].
  destruct (Z.eqb_spec i (-1)) as [Ei|Ei]; [eexists; reflexivity|].
  destruct (K Ei) as (Hi & _).
  destruct (vec_at_range _ pts i) as [b ->]; [lia|]. cbn [obind].
  destruct (vec_at_range _ pts (i + 1)) as [c ->]; [lia|]. cbn [obind].
  destruct (next_deref_in _ a i) as (x & -> & _); [lia|]. cbn [obind].
  destruct (st =? ap_station x); [eexists; reflexivity|].
  destruct (next_deref_in _ a (i + 1)) as (y & -> & _); [lia|]. cbn [obind].
  destruct (st =? ap_station y); [eexists; reflexivity|].
  destruct (Z.eqb_spec i 0); cbn [obind]; [eexists; reflexivity|].
  destruct (segment_ok pts (i - 1)) as [v ->]; [lia|]. eexists. reflexivity.
Qed.

(** The coordinates of the structures. *)
Definition struct_points (o : Point3d N) (a : list (AlignmentPoint N)) structs : list (Point3d N) :=
  fst (UpdatePointsXyzLineStructures_loop a (PointsAlignment o a) structs).

Lemma structures_loop_ok : forall a pts structs, sorted_pts ok a -> (2 <= length a)%nat ->
  length pts = length a -> Forall ok (stations structs) ->
  snd (UpdatePointsXyzLineStructures_loop a pts structs) = Ok tt /\
  length (fst (UpdatePointsXyzLineStructures_loop a pts structs)) = length structs.
Proof.
  intros a pts structs HS H2 HL. induction structs as [|[id s] structs IH]; intros HF; simpl; auto.
  unfold stations in HF. simpl in HF. inversion HF; subst.
  destruct (FromStation_ok a pts (ls_station s) HS) as [p ->]; auto.
  destruct (IH H3) as [IH1 IH2].
  destruct (UpdatePointsXyzLineStructures_loop a pts structs). simpl in *. auto.
Qed.

Lemma structures_loop_snd : forall (a : list (AlignmentPoint N)) pts structs structs',
  map snd structs = map snd structs' ->
  UpdatePointsXyzLineStructures_loop a pts structs = UpdatePointsXyzLineStructures_loop a pts structs'.
Proof.
  intros a pts. induction structs as [|[i s] structs IH]; intros [|[i' s'] structs'] H; try discriminate; auto.
  simpl in H. inversion H; subst. simpl. rewrite (IH structs') by auto. reflexivity.
Qed.

Definition good l : Prop :=
  (tl_is_updated_alignment l = false /\ tl_is_updated_structures l = false) \/
  (tl_is_updated_alignment l = true /\ tl_is_updated_structures l = true /\
   tl_points_structures l = struct_points (tl_origin l) (tl_alignment l) (tl_line_structures l)).

Definition two_points l : Prop := (2 <= length (tl_alignment l))%nat.

Lemma Update_good : forall l l' r, Inv ok l -> Inv2 l -> two_points l -> good l -> Update l = (l', r) ->
  good l' /\ tl_is_updated_structures l' = true /\ r = Ok true.
Proof.
  intros l l' r (I1 & I2 & _) J H2 G H. unfold Update in H.
  assert (K := structures_loop_ok (tl_alignment l) (PointsAlignment (tl_origin l) (tl_alignment l))
                 (tl_line_structures l) I1 H2 (PointsAlignment_length _ _) (proj1 I2)).
  destruct G as [[Ga Gs]|(Ga & Gs & Gp)]; rewrite Ga in H.
  - simpl in H. rewrite Gs in H.
    destruct (UpdatePointsXyzLineStructures_loop _ _ _) as [ps rr] eqn:E. simpl in K. destruct K as [-> _].
    inversion H; subst. simpl. split; auto. right. simpl. repeat split; auto.
    unfold struct_points. rewrite E. auto.
  - rewrite Gs in H. inversion H; subst. split; auto. right. auto.
Qed.

Lemma query_good : forall A l (f : A) k l' r, Inv ok l -> Inv2 l -> two_points l -> good l ->
  query l f k = (l', r) ->
  good l' /\ tl_is_updated_structures l' = true /\ r = k l'.
Proof.
  intros A l f k l' r HI HI2 H2 G H. unfold query, IsUpdated in H.
  destruct (tl_is_updated_alignment l || tl_is_updated_structures l) eqn:E.
  - inversion H; subst. split; auto. split; auto.
    destruct G as [[Ga Gs]|(Ga & Gs & Gp)]; auto. rewrite Ga, Gs in E. discriminate.
  - destruct (Update l) as [l1 r1] eqn:EU. apply Update_good in EU as (G1 & G2 & ->); auto.
    inversion H; subst. auto.
Qed.

Lemma pframe_good : forall l l', pframe l l' -> tl_line_structures l' = tl_line_structures l -> good l -> good l'.
Proof. unfold pframe, good. intros l l' (A & B & C & D & E & F) G. rewrite A, B, C, D, F, G. auto. Qed.

(** The content that coordinates depend on. *)
Definition coord_same l l' : Prop :=
  tl_alignment l' = tl_alignment l /\ tl_origin l' = tl_origin l /\
  tl_line_structures l' = tl_line_structures l.

Lemma tail_step : forall l c l' r, Inv ok l -> Inv2 l -> two_points l -> good l ->
  is_query c || is_cable_call c = true -> line_step l c = (l', r) -> good l' /\ coord_same l l'.
Proof.
  intros l c l' r HI HI2 H2 G Hc H.
  assert (QG : forall A (f : A) k r0, query l f k = (l', r0) -> good l' /\ coord_same l l').
  { intros A f k r0 K. split; [eapply query_good; eauto|].
    apply query_content in K as ((K1 & K2 & K4) & _ & K3). split; [|split]; auto. }
  assert (PG : pframe l l' /\ tl_line_structures l' = tl_line_structures l -> good l' /\ coord_same l l').
  { intros [K1 K2]. split; [eapply pframe_good; eauto|]. destruct K1 as (? & ? & _). split; [|split]; auto. }
  assert (SG : l' = l -> good l' /\ coord_same l l').
  { intros ->. split; [auto|split; [|split]; auto]. }
  destruct c; try discriminate; simpl in H; try (apply drop_eq in H as (r0 & H & _)); try (eapply QG; exact H).
  - destruct (build_cable _ _ _); [|apply SG; congruence|apply SG; congruence].
    apply drop_eq in H as (r0 & H & _). apply AddLineCable_pframe in H; apply PG; apply H.
  - apply DeleteLineCable_pframe in H; apply PG; apply H.
  - destruct (build_cable _ _ _); [|apply SG; congruence|apply SG; congruence].
    apply drop_eq in H as (r0 & H & _). apply ModifyLineCable_pframe in H; apply PG; apply H.
  - apply SG; congruence.
  - assert (C := Line_Validate_content _ _ _ _ H). destruct C as ((C1 & _ & C2) & _ & C3).
    unfold Line_Validate in H. destruct parts; try (apply SG; congruence).
    destruct (Update l) as [l1 r1] eqn:EU. apply Update_good in EU as (G1 & G2 & ->); auto.
    inversion H; subst. split; auto. repeat split; auto.
Qed.

Lemma tail_run : forall tail l l', Inv ok l -> Inv2 l -> two_points l -> good l ->
  Forall (call_args_ok ok) tail ->
  Forall (fun c => is_query c || is_cable_call c = true) tail -> line_run_from l tail = Some l' ->
  good l' /\ coord_same l l'.
Proof.
  induction tail as [|c tail IH]; intros l l' HI HI2 H2 G HO HF H; simpl in H.
  - inversion H; subst. split; auto. repeat split.
  - inversion HF; subst. inversion HO; subst.
    destruct (line_step l c) as [l1 r1] eqn:E.
    assert (NU : r1 <> UB) by (intros ->; discriminate).
    assert (H' : line_run_from l1 tail = Some l') by (destruct r1; congruence).
    assert (A1 : Inv ok l1) by (eapply step_Inv; eauto).
    assert (A2 : Inv2 l1) by (eapply step_Inv2; eauto).
    destruct (tail_step l c l1 r1) as [A3 (A4 & A5 & A6)]; auto.
    destruct (IH l1 l') as [B1 (B2 & B3 & B4)]; auto.
    + unfold two_points. rewrite A4. auto.
    + split; auto. repeat split; congruence.
Qed.

Lemma run_from_app : forall c1 c2 l, line_run_from l (c1 ++ c2) =
  match line_run_from l c1 with Some l' => line_run_from l' c2 | None => None end.
Proof.
  induction c1 as [|c c1 IH]; intros c2 l; simpl; auto.
  destruct (line_step l c) as [l1 [| |]]; auto.
Qed.

Lemma nonquery_step_flags : forall l c l' r, is_query c = false ->
  tl_is_updated_alignment l = false -> tl_is_updated_structures l = false ->
  line_step l c = (l', r) -> r <> UB ->
  tl_is_updated_alignment l' = false /\ tl_is_updated_structures l' = false.
Proof.
  intros l c l' r Hc Ha Hs H Hr.
  destruct (is_alignment_edit c) eqn:Ee; [eapply alignment_edit_flags; eauto|].
  assert (PG : pframe l l' -> tl_is_updated_alignment l' = false /\ tl_is_updated_structures l' = false).
  { intros (_ & _ & -> & -> & _). auto. }
  destruct c; try discriminate; simpl in H; try (apply drop_eq in H as (r0 & H & ->)).
  - destruct (build_cable _ _ _); [|inversion H; subst; auto|inversion H; subst; auto].
    apply drop_eq in H as (r0 & H & _). apply AddLineCable_pframe in H; apply PG; apply H.
  - apply AddLineStructure_cases in H as [[-> _]|(pos & _ & V & _ & ->)]; auto.
  - apply DeleteLineCable_pframe in H; apply PG; apply H.
  - unfold DeleteLineStructure in H.
    destruct (negb _); [inversion H; subst; auto|].
    destruct (next_deref _ _) as [[id s]| |]; try (inversion H; subst; auto; fail).
    destruct (line_DeleteInvalidLineCables _) as [l2 r2] eqn:E.
    apply delete_cables_pframe in E as [(_ & _ & E1 & E2 & _) _]. simpl in E1, E2.
    destruct r2; inversion H; subst; simpl; rewrite ?E1, ?E2; auto.
  - destruct (build_cable _ _ _); [|inversion H; subst; auto|inversion H; subst; auto].
    apply drop_eq in H as (r0 & H & _). apply ModifyLineCable_pframe in H; apply PG; apply H.
  - apply ModifyLineStructure_cases in H as [[-> _]|H]; auto.
    + destruct H as (id & s0 & st & Hi & Hn & _ & _ & _ & _ & _ & H). cbn zeta in H.
      destruct H as (c'' & r' & _ & _ & ->). auto.
    + apply omap_UB in Hr. auto.
Qed.

Lemma fresh_flags : forall l, fresh_line l ->
  tl_is_updated_alignment l = false /\ tl_is_updated_structures l = false.
Proof.
  intros l (calls & HF & H). unfold line_run in H.
  assert (K : forall l0, tl_is_updated_alignment l0 = false /\ tl_is_updated_structures l0 = false ->
     line_run_from l0 calls = Some l ->
     tl_is_updated_alignment l = false /\ tl_is_updated_structures l = false).
  { clear H. induction calls as [|c calls IH]; intros l0 [Ha Hs] H; simpl in H.
    - inversion H; subst; auto.
    - destruct (line_step l0 c) as [l1 r1] eqn:E.
      assert (NU : r1 <> UB) by (intros ->; discriminate).
      assert (H' : line_run_from l1 calls = Some l) by (destruct r1; congruence).
      apply (IH ltac:(intros; apply HF; simpl; auto) l1); auto.
      eapply nonquery_step_flags; eauto. apply HF. simpl; auto. }
  eapply K; eauto. simpl. auto.
Qed.

(** Good lines answer from the current content. *)
Lemma good_answers : forall l, Inv ok l -> Inv2 l -> two_points l -> good l ->
  let pts := struct_points (tl_origin l) (tl_alignment l) (tl_line_structures l) in
  snd (PointsXyzLineStructures l) = Ok (Some pts) /\
  length pts = length (tl_line_structures l) /\
  (forall i, snd (PointXyzLineStructure l i) =
     if valid_index (tl_line_structures l) i then vec_at pts i else Ok Point3d_default) /\
  (forall i j, snd (PointXyzLineStructureAttachment l i j) =
     snd (PointXyzLineStructureAttachment (P := P)
       (mkLine (tl_alignment l) [] (tl_line_structures l) (tl_origin l) true true
          (PointsAlignment (tl_origin l) (tl_alignment l)) pts 0) i j)).
Proof.
  intros l HI HI2 H2 G pts.
  assert (QG : forall A (f : A) k, exists l', snd (query l f k) = k l' /\ coord_same l l' /\
     tl_points_alignment l' = PointsAlignment (tl_origin l) (tl_alignment l) /\ tl_points_structures l' = pts).
  { intros A f k. destruct (query l f k) as [l' r] eqn:E. exists l'.
    assert (B := query_body _ _ _ _ _ _ HI2 E). destruct B as ((B1 & _ & B2) & B3 & B4 & _).
    apply query_good in E as (G1 & G2 & ->); auto. repeat split; auto.
    destruct G1 as [[_ G1]|(_ & _ & G1)]; [congruence|]. rewrite G1, B1, B2, B3. auto. }
  split; [|split; [|split]].
  - unfold PointsXyzLineStructures. destruct (QG _ None (fun l => Ok (Some (tl_points_structures l)))) as (l' & -> & _ & _ & ->). auto.
  - unfold pts, struct_points. apply structures_loop_ok; auto using PointsAlignment_length; [apply HI|apply HI].
  - intros i. unfold PointXyzLineStructure.
    match goal with |- snd (query l ?f ?k) = _ => destruct (QG _ f k) as (l' & -> & (S1 & S2 & S3) & _ & Ep) end.
    unfold IsValidLineStructureIndex. rewrite S3, Ep. destruct (valid_index _ i); auto.
  - intros i j. unfold PointXyzLineStructureAttachment.
    match goal with |- snd (query l ?f ?k) = _ => destruct (QG _ f k) as (l' & -> & (S1 & S2 & S3) & Ea & Ep) end.
    unfold query. simpl. unfold IsValidLineStructureIndex. cbn [tl_line_structures]. rewrite S1, S3, Ea, Ep. reflexivity.
Qed.

Definition same_structures l l' : Prop :=
  tl_alignment l' = tl_alignment l /\ tl_origin l' = tl_origin l /\ structures_of l' = structures_of l.

Lemma fresh_answers : forall l, two_points l -> Inv ok l ->
  forall l0, fresh_line l0 -> same_structures l l0 ->
  let pts := struct_points (tl_origin l) (tl_alignment l) (tl_line_structures l) in
  snd (PointsXyzLineStructures l0) = Ok (Some pts) /\
  (forall i, snd (PointXyzLineStructure l0 i) =
     if valid_index (tl_line_structures l) i then vec_at pts i else Ok Point3d_default) /\
  (forall i j, snd (PointXyzLineStructureAttachment l0 i j) =
     snd (PointXyzLineStructureAttachment (P := P)
       (mkLine (tl_alignment l) [] (tl_line_structures l) (tl_origin l) true true
          (PointsAlignment (tl_origin l) (tl_alignment l)) pts 0) i j)).
Proof.
  intros l H2 (I1 & I2 & _) l0 HF (S1 & S2 & S3) pts. apply fresh_flags in HF as [Fa Fs].
  unfold structures_of in S3.
  assert (HL : length (tl_line_structures l0) = length (tl_line_structures l)).
  { rewrite <- (map_length snd (tl_line_structures l0)), S3, map_length. auto. }
  assert (EU : exists l1, Update l0 = (l1, Ok true) /\ tl_line_structures l1 = tl_line_structures l0 /\
     tl_alignment l1 = tl_alignment l /\ tl_points_alignment l1 = PointsAlignment (tl_origin l) (tl_alignment l) /\
     tl_points_structures l1 = pts).
  { unfold Update. rewrite Fa. simpl. rewrite Fs, S1, S2.
    assert (K := structures_loop_ok (tl_alignment l) (PointsAlignment (tl_origin l) (tl_alignment l))
                 (tl_line_structures l) I1 H2 (PointsAlignment_length _ _) (proj1 I2)).
    rewrite (structures_loop_snd _ _ _ _ S3).
    unfold pts, struct_points.
    destruct (UpdatePointsXyzLineStructures_loop _ _ _) as [ps rr]. simpl in K. destruct K as [-> _].
    eexists. split; [reflexivity|]. simpl. auto. }
  destruct EU as (l1 & EU & E1 & E2 & E3 & E4).
  assert (QG : forall A (f : A) k, snd (query l0 f k) = k l1).
  { intros A f k. unfold query, IsUpdated. rewrite Fa, Fs, EU. auto. }
  split; [|split].
  - unfold PointsXyzLineStructures. rewrite QG, E4. auto.
  - intros i. unfold PointXyzLineStructure. rewrite QG. unfold IsValidLineStructureIndex, valid_index.
    rewrite E1, HL, E4. destruct (_ && _); auto.
  - intros i j. unfold PointXyzLineStructureAttachment. rewrite QG. unfold query. simpl.
    unfold IsValidLineStructureIndex, valid_index. cbn [tl_line_structures].
    rewrite E1, HL, E2, E3, E4.
    destruct (((0 <=? i)%Z && (i <? Z.of_nat (length (tl_line_structures l)))%Z)) eqn:Ev; cbn [negb]; auto.
    apply andb_true_iff in Ev as [Ev1 Ev2]. apply Z.leb_le in Ev1. apply Z.ltb_lt in Ev2.
    destruct (next_deref_in _ (tl_line_structures l) i) as (x & -> & X); [lia|].
    destruct (next_deref_in _ (tl_line_structures l0) i) as (y & -> & Y); [lia|]. cbn [obind].
    assert (snd x = snd y) as ->; [|reflexivity].
    apply (map_nth_error snd) in X. apply (map_nth_error snd) in Y. rewrite S3 in Y. congruence.
Qed.

(** After an alignment edit, followed by queries and cable calls only, the
    structure coordinates are current. *)
Lemma structure_points_current : forall hist e tail l,
  Forall (call_args_ok ok) (hist ++ e :: tail) -> is_alignment_edit e = true ->
  Forall (fun c => is_query c || is_cable_call c = true) tail ->
  line_run (hist ++ e :: tail) = Some l -> two_points l ->
  Inv ok l /\ Inv2 l /\ good l.
Proof.
  intros hist e tail l HO He HT H H2.
  assert (HI : Inv ok l) by (eapply run_Inv; eauto).
  assert (HI2 : Inv2 l) by (eapply run_Inv2; eauto).
  split; auto. split; auto.
  unfold line_run in H. rewrite run_from_app in H.
  destruct (line_run_from Line_empty hist) as [l1|] eqn:E1; [|discriminate].
  apply Forall_app in HO as [HO1 HO2]. inversion HO2; subst.
  assert (A1 : Inv ok l1) by (exact (run_Inv ok OL hist l1 HO1 E1)).
  assert (A2 : Inv2 l1) by (exact (run_Inv2 hist l1 E1)).
  simpl in H. destruct (line_step l1 e) as [l2 r2] eqn:E2.
  assert (NU : r2 <> UB) by (intros ->; discriminate).
  assert (H' : line_run_from l2 tail = Some l) by (destruct r2; congruence).
  assert (B1 : Inv ok l2) by (eapply step_Inv; eauto).
  assert (B2 : Inv2 l2) by (eapply step_Inv2; eauto).
  assert (G : good l2) by (left; eapply alignment_edit_flags; eauto).
  assert (EA : tl_alignment l = tl_alignment l2).
  { clear - H' HT. revert l2 H'. induction tail as [|c tail IH]; intros l2 H; simpl in H; [congruence|].
    inversion HT; subst. destruct (line_step l2 c) as [l3 r3] eqn:E.
    assert (K : tl_alignment l3 = tl_alignment l2).
    { clear - E H2. destruct c; try discriminate; simpl in E; try (apply drop_eq in E as (r0 & E & _));
        try (apply query_content in E as ((E & _) & _); exact E).
      - destruct (build_cable _ _ _); [|inversion E; auto|inversion E; auto].
        apply drop_eq in E as (r0 & E & _). apply AddLineCable_pframe in E. apply E.
      - apply DeleteLineCable_pframe in E. apply E.
      - destruct (build_cable _ _ _); [|inversion E; auto|inversion E; auto].
        apply drop_eq in E as (r0 & E & _). apply ModifyLineCable_pframe in E. apply E.
      - inversion E; auto.
      - apply Line_Validate_content in E as ((E & _) & _). exact E. }
    rewrite <- K. apply IH; auto. destruct r3; congruence. }
  eapply tail_run; [exact B1|exact B2| |exact G| | |exact H']; auto.
  unfold two_points in *. rewrite <- EA. auto.
Qed.

End Q.
