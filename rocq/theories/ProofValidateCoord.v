(** Validate brings the coordinates of the line up to date. *)
From Coq Require Import ZArith Bool List Lia.
From Verif Require Import Num ModelBase ModelAlignment ModelLine SpecLine ListFacts ProofAlignment
  SpecTransmission ProofLine ProofLineInv ProofLineFacts ProofLineCoord ProofLineQuery.
Import ListNotations.
Open Scope num_scope.

Section P.
Context {N : Num} (ok : N -> Prop) (OL : OrdLaws N ok) {P : Type}.
Implicit Types l : Line N P.

(** The structure coordinates are current whenever their flag is set. *)
Definition Inv3 l : Prop :=
  tl_is_updated_structures l = true ->
  UpdatePointsXyzLineStructures_loop (tl_alignment l) (PointsAlignment (tl_origin l) (tl_alignment l)) (tl_line_structures l)
  = (tl_points_structures l, Ok tt).

Lemma Update_Inv3 : forall l l' r, Inv2 l -> Inv3 l -> Update l = (l', r) -> Inv3 l' /\
  (forall b, r = Ok b -> b = true /\ tl_is_updated_alignment l' = true /\ tl_is_updated_structures l' = true).
Proof.
  intros l l' r J I H. assert (C := Update_content _ _ _ H). destruct C as ((C1 & C2 & C3) & _ & C4).
  assert (A := Update_Inv2 _ _ _ J H). destruct A as [(_ & A2 & _) A4].
  unfold Inv3. rewrite C1, C3, C4. unfold Update in H. cbn zeta in H.
  set (l1 := if tl_is_updated_alignment l then l else _) in H.
  assert (K : tl_is_updated_structures l1 = tl_is_updated_structures l /\ tl_alignment l1 = tl_alignment l /\
    tl_line_structures l1 = tl_line_structures l /\ tl_points_structures l1 = tl_points_structures l /\
    tl_is_updated_alignment l1 = true /\ tl_points_alignment l1 = PointsAlignment (tl_origin l) (tl_alignment l)).
  { unfold l1. destruct (tl_is_updated_alignment l) eqn:E; cbn; repeat split; auto. apply J; auto. }
  destruct K as (K1 & K2 & K3 & K4 & K5 & K6). clearbody l1. rewrite K1 in H.
  destruct (tl_is_updated_structures l) eqn:E.
  - inversion H; subst. split.
    + intros _. rewrite K4. apply I; auto.
    + intros b Hb. inversion Hb. repeat split; auto. 
  - rewrite K2, K3, K6 in H. destruct (UpdatePointsXyzLineStructures_loop _ _ _) as [ps [u| |]]; inversion H; subst; cbn.
    + split; [intros _; destruct u; auto|]. intros b Hb. inversion Hb. auto.
    + split; [congruence|discriminate].
    + split; [congruence|discriminate].
Qed.

Lemma pframe_Inv3 : forall l l', pframe l l' -> tl_line_structures l' = tl_line_structures l -> Inv3 l -> Inv3 l'.
Proof. unfold pframe, Inv3. intros l l' (A & B & C & D & E & G) H. rewrite A, B, D, G, H. auto. Qed.

Lemma query_Inv3 : forall A l (f : A) k l' r, Inv2 l -> Inv3 l -> query l f k = (l', r) -> Inv3 l'.
Proof.
  intros A l f k l' r J I H. unfold query in H. destruct (IsUpdated l); [inversion H; subst; auto|].
  destruct (Update l) as [l1 r1] eqn:E. apply Update_Inv3 in E as [E _]; auto.
  destruct r1 as [[]| |]; inversion H; subst; auto.
Qed.

Lemma stale_Inv3 : forall l, tl_is_updated_structures l = false -> Inv3 l.
Proof. unfold Inv3. congruence. Qed.

Lemma step_Inv3 : forall l c l' r, Inv2 l -> Inv3 l -> line_step l c = (l', r) -> r <> UB -> Inv3 l'.
Proof.
  intros l c l' r J I H Hr.
  destruct (is_alignment_edit c) eqn:Ee; [apply stale_Inv3; eapply alignment_edit_flags; eauto|].
  assert (PG : pframe l l' /\ tl_line_structures l' = tl_line_structures l -> Inv3 l').
  { intros [K1 K2]. eapply pframe_Inv3; eauto. }
  destruct c; try discriminate; simpl in H; try (apply drop_eq in H as (r0 & H & ->));
    try (eapply query_Inv3; eauto; fail).
  - destruct (build_cable _ _ _); [|inversion H; subst; auto|inversion H; subst; auto].
    apply drop_eq in H as (r0 & H & _). apply AddLineCable_pframe in H; apply PG; apply H.
  - apply stale_Inv3. apply AddLineStructure_cases in H as [[-> _]|(pos & _ & V & _ & ->)]; auto.
  - apply DeleteLineCable_pframe in H; apply PG; apply H.
  - apply stale_Inv3. unfold DeleteLineStructure in H.
    destruct (negb _); [inversion H; subst; auto|].
    destruct (next_deref _ _) as [[id s]| |]; try (inversion H; subst; auto; fail).
    destruct (line_DeleteInvalidLineCables _) as [l2 r2] eqn:E.
    apply delete_cables_pframe in E as [(_ & _ & E1 & E2 & _) _]. simpl in E1, E2.
    destruct r2; inversion H; subst; simpl; rewrite ?E1, ?E2; auto.
  - destruct (build_cable _ _ _); [|inversion H; subst; auto|inversion H; subst; auto].
    apply drop_eq in H as (r0 & H & _). apply ModifyLineCable_pframe in H; apply PG; apply H.
  - apply stale_Inv3. apply ModifyLineStructure_cases in H as [[-> _]|H]; auto.
    + destruct H as (id & s0 & st & Hi & Hn & _ & _ & _ & _ & _ & H). cbn zeta in H.
      destruct H as (c'' & r' & _ & _ & ->). auto.
    + apply omap_UB in Hr. auto.
  - inversion H; subst; auto.
  - unfold Line_Validate in H. destruct parts; try (inversion H; subst; auto; fail).
    destruct (Update l) as [l1 r1] eqn:EU. apply Update_Inv3 in EU as [EU _]; auto.
    destruct r1; inversion H; subst; auto.
Qed.

Lemma run_Inv3 : forall calls l l', Inv2 l -> Inv3 l -> line_run_from l calls = Some l' -> Inv3 l'.
Proof.
  induction calls as [|c calls IH]; intros l l' J I H; simpl in H; [injection H as <-; auto|].
  destruct (line_step l c) as [l1 r1] eqn:E.
  assert (NU : r1 <> UB) by (intros ->; discriminate).
  apply (IH l1); [eapply step_Inv2; eauto|eapply step_Inv3; eauto|destruct r1; congruence].
Qed.

Lemma reachable_Inv3 : forall l, reachable ok l -> Inv3 l.
Proof.
  intros l (calls & _ & H). eapply (run_Inv3 calls Line_empty); [apply Inv2_empty| |exact H].
  apply stale_Inv3. reflexivity.
Qed.

(** ** The answers after Validate *)

Lemma ready_query : forall A l (f : A) k, tl_is_updated_alignment l = true -> query l f k = (l, k l).
Proof. intros A l f k H. unfold query, IsUpdated. rewrite H. reflexivity. Qed.

Lemma validate_answers : forall l parts l' b l0, reachable ok l -> Line_Validate l parts = (l', Ok b) ->
  fresh_line l0 -> tl_alignment l0 = tl_alignment l -> tl_origin l0 = tl_origin l ->
  structures_of l0 = structures_of l ->
  snd (PointsXyzAlignment l') = snd (PointsXyzAlignment l0) /\
  snd (PointsXyzLineStructures l') = snd (PointsXyzLineStructures l0) /\
  (forall x, snd (PointXyzAlignment l' x) = snd (PointXyzAlignment l0 x)) /\
  (forall i, snd (PointXyzLineStructure l' i) = snd (PointXyzLineStructure l0 i)) /\
  (forall i j, snd (PointXyzLineStructureAttachment l' i j) = snd (PointXyzLineStructureAttachment l0 i j)).
Proof.
  intros l parts l' b l0 HR H HF S1 S2 S3.
  assert (J := reachable_Inv2 ok l HR). assert (I := reachable_Inv3 l HR).
  unfold Line_Validate in H. destruct parts as [v| |]; try discriminate.
  destruct (Update l) as [l1 r1] eqn:EU.
  assert (C := Update_content _ _ _ EU). destruct C as ((C1 & C2 & C3) & _ & C4).
  assert (A := Update_Inv2 _ _ _ J EU). destruct A as [(_ & A2 & _) _].
  apply Update_Inv3 in EU as [I' G]; auto.
  destruct r1 as [u| |]; try discriminate. destruct (G u eq_refl) as (-> & Ga & Gs). clear G.
  injection H as <- _. specialize (I' Gs). specialize (A2 Ga). rewrite C1, C3, C4 in I'. rewrite C1, C4 in A2.
  apply fresh_flags in HF as [Fa Fs]. unfold structures_of in S3.
  assert (HL : length (tl_line_structures l0) = length (tl_line_structures l)).
  { rewrite <- (map_length snd (tl_line_structures l0)), S3, map_length. auto. }
  assert (EU : exists l2, Update l0 = (l2, Ok true) /\ tl_line_structures l2 = tl_line_structures l0 /\
     tl_alignment l2 = tl_alignment l /\ tl_points_alignment l2 = tl_points_alignment l1 /\
     tl_points_structures l2 = tl_points_structures l1).
  { unfold Update. rewrite Fa. cbn. rewrite Fs, S1, S2, (structures_loop_snd _ _ _ _ S3), I'.
    eexists. split; [reflexivity|]. cbn. auto. }
  destruct EU as (l2 & EU & E1 & E2 & E3 & E4).
  assert (QG : forall A (f : A) k, snd (query l0 f k) = k l2).
  { intros A f k. unfold query, IsUpdated. rewrite Fa, Fs, EU. auto. }
  unfold PointsXyzAlignment, PointsXyzLineStructures, PointXyzAlignment, PointXyzLineStructure, PointXyzLineStructureAttachment.
  split; [|split; [|split; [|split]]]; intros; rewrite QG, ready_query by auto; cbn [snd].
  - rewrite E3. auto.
  - rewrite E4. auto.
  - rewrite E2, E3, C1. auto.
  - unfold IsValidLineStructureIndex, valid_index. rewrite E1, C3, HL, E4. auto.
  - unfold IsValidLineStructureIndex, valid_index. rewrite E1, C3, HL, E2, E3, E4, C1.
    destruct (((0 <=? i)%Z && (i <? Z.of_nat (length (tl_line_structures l)))%Z)) eqn:Ev; cbn [negb]; auto.
    apply andb_true_iff in Ev as [Ev1 Ev2]. apply Z.leb_le in Ev1. apply Z.ltb_lt in Ev2.
    destruct (next_deref_in _ (tl_line_structures l) i) as (x & -> & X); [lia|].
    destruct (next_deref_in _ (tl_line_structures l0) i) as (y & -> & Y); [lia|]. cbn [obind].
    assert (snd x = snd y) as ->; [|reflexivity].
    apply (map_nth_error snd) in X. apply (map_nth_error snd) in Y. rewrite S3 in Y. congruence.
Qed.
End P.
