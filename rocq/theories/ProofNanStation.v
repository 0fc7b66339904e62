(** Which calls can give a line structure a station that is not a number. *)
From Coq Require Import ZArith Bool List Lia.
From Flocq Require Import Core BinarySingleNaN.
From Verif Require Import Num NumFacts ModelBase ModelAlignment ModelLine SpecLine ListFacts ProofAlignment
  SpecTransmission ProofLine ProofLineInv ProofLineFacts ProofLineCoord.
Import ListNotations.
Open Scope num_scope.

Section P.
Context {N : Num} {P : Type}.
Implicit Types l : Line N P.
Variable D : N -> Prop.
Hypothesis HD : forall a x : N, (a <=? x) = true -> D x.

Definition defined l : Prop := Forall (fun n : nat * LineStructure N => D (ls_station (snd n))) (tl_line_structures l).

Definition modify_ok (c : LineCall N P) : Prop :=
  match c with CModifyLineStructure _ s => D (ls_station s) | _ => True end.

Lemma defined_sub : forall l l', sub (tl_line_structures l') (tl_line_structures l) -> defined l -> defined l'.
Proof.
  unfold defined. intros l l' S H. apply Forall_forall. intros x Hx. apply (sub_In _ _ _ S) in Hx.
  rewrite Forall_forall in H. auto.
Qed.

Lemma defined_same : forall l l', tl_line_structures l' = tl_line_structures l -> defined l -> defined l'.
Proof. unfold defined. intros l l' ->. auto. Qed.

Lemma Update_same : forall l l' r, Update l = (l', r) -> tl_line_structures l' = tl_line_structures l.
Proof.
  intros l l' r H. unfold Update in H. set (l1 := if tl_is_updated_alignment l then l else _) in H.
  assert (K : tl_line_structures l1 = tl_line_structures l) by (unfold l1; destruct (tl_is_updated_alignment l); reflexivity).
  clearbody l1. destruct (tl_is_updated_structures l1); [inversion H; subst; exact K|].
  destruct (UpdatePointsXyzLineStructures_loop _ _ _) as [ps [| |]]; inversion H; subst; exact K.
Qed.

Lemma IsValidStation_D : forall (a : list (AlignmentPoint N)) x, IsValidStation a x = Ok true -> D x.
Proof.
  intros a x H. unfold IsValidStation in H. destruct (front a) as [f| |]; cbn [obind] in H; try discriminate H.
  destruct (back a) as [b| |]; cbn [obind] in H; try discriminate H. injection H as H. apply andb_true_iff in H as (H & _).
  exact (HD _ _ H).
Qed.

Lemma step_defined : forall l c l' r, defined l -> modify_ok c -> line_step l c = (l', r) -> r <> UB -> defined l'.
Proof.
  intros l c l' r HI Hc H Hr.
  destruct c; simpl in H;
    try (apply drop_eq in H as (r0 & H & ->); apply omap_UB in Hr).
  - apply (defined_same l); auto. unfold AddAlignmentPoint in H. simpl in H. destruct (AddPoint (tl_alignment l) p).
    inversion H; subst. reflexivity.
  - destruct (build_cable _ _ _); [|inversion H; subst; auto|inversion H; subst; congruence].
    apply drop_eq in H as (r0 & H & ->). apply AddLineCable_pframe in H as [_ H']. apply (defined_same l); auto.
  - apply AddLineStructure_cases in H as [[-> _]|(pos & _ & V & _ & ->)]; [exact HI|].
    unfold defined. simpl. apply Forall_forall. intros x Hx. apply In_insert_at in Hx as [->|Hx].
    + simpl. eapply IsValidStation_D. exact V.
    + unfold defined in HI. rewrite Forall_forall in HI. auto.
  - unfold DeleteAlignmentPoint in H. simpl in H. destruct (DeletePoint (tl_alignment l) index) as [a d].
    destruct (d && _).
    + apply cleanup_pframe in H as [_ H]. exact (defined_sub (with_alignment (stale_all l) a) l' H HI).
    + inversion H; subst. exact HI.
  - apply DeleteLineCable_pframe in H as [_ H']. apply (defined_same l); auto.
  - unfold DeleteLineStructure in H.
    destruct (negb _); [inversion H; subst; exact HI|].
    destruct (next_deref _ _) as [[id s]| |]; try (inversion H; subst; exact HI).
    destruct (line_DeleteInvalidLineCables _) as [l2 r2] eqn:E.
    apply delete_cables_pframe in E as [_ E'].
    assert (K : defined l2) by (apply (defined_same l); auto).
    destruct r2; inversion H; subst; auto.
    apply (defined_sub l2); auto. simpl. apply sub_remove_at.
  - unfold ModifyAlignmentPoint in H. simpl in H.
    destruct (ModifyPoint (tl_alignment l) index p) as [a d].
    destruct (negb (d =? -1)%Z && _).
    + apply cleanup_pframe in H as [_ H]. exact (defined_sub (with_alignment (stale_all l) a) l' H HI).
    + inversion H; subst. exact HI.
  - destruct (build_cable _ _ _); [|inversion H; subst; auto|inversion H; subst; congruence].
    apply drop_eq in H as (r0 & H & ->). apply ModifyLineCable_pframe in H as [_ H']. apply (defined_same l); auto.
  - apply ModifyLineStructure_cases in H as [[-> _]|H]; auto.
    destruct H as (id & s0 & st & Hi & Hn & _ & _ & _ & _ & _ & H). cbn zeta in H.
    destruct H as (c'' & r' & _ & _ & ->). unfold defined. simpl. apply Forall_list_set; [exact Hc|exact HI].
  - inversion H; subst. exact HI.
  - apply query_content in H as ((_ & _ & H) & _). apply (defined_same l); auto.
  - apply query_content in H as ((_ & _ & H) & _). apply (defined_same l); auto.
  - apply query_content in H as ((_ & _ & H) & _). apply (defined_same l); auto.
  - apply query_content in H as ((_ & _ & H) & _). apply (defined_same l); auto.
  - apply query_content in H as ((_ & _ & H) & _). apply (defined_same l); auto.
  - inversion H; subst. auto.
  - unfold Line_Validate in H. destruct parts; try (inversion H; subst; auto; fail).
    destruct (Update l) as [l1 r1] eqn:E. assert (l1 = l') as <- by (destruct r1; inversion H; auto).
    apply (defined_same l); auto. eapply Update_same; eauto.
Qed.

Lemma run_from_defined : forall calls l l', defined l -> Forall modify_ok calls -> line_run_from l calls = Some l' -> defined l'.
Proof.
  induction calls as [|c calls IH]; intros l l' H F E; cbn [line_run_from] in E.
  { injection E as <-. exact H. }
  inversion F as [|? ? F1 F2]; subst. destruct (line_step l c) as [l1 r] eqn:S.
  destruct r; try discriminate E; apply (IH l1 l'); auto; eapply step_defined; eauto; discriminate.
Qed.

End P.

Lemma line_stations_numbers : forall lm (P : Type) (calls : list (LineCall (B64 lm) P)) l,
  (forall (i : Z) (s : LineStructure (B64 lm)), In (CModifyLineStructure i s) calls -> num64 (ls_station s)) -> line_run calls = Some l ->
  Forall (fun s : LineStructure (B64 lm) => num64 (ls_station s)) (structures_of l).
Proof.
  intros lm P calls l H R.
  assert (HD : forall a x : B64 lm, (a <=? x) = true -> num64 x).
  { intros a x K. unfold num64. destruct x; try reflexivity.
    exfalso. destruct a as [[|]|[|]| |[|] ? ? ?]; discriminate K. }
  assert (F : Forall (modify_ok (N := B64 lm) (P := P) num64) calls).
  { apply Forall_forall. intros c Hc. destruct c; cbn [modify_ok]; auto. eapply H. exact Hc. }
  pose proof (run_from_defined (N := B64 lm) num64 HD calls Line_empty l ltac:(constructor) F R) as K.
  unfold structures_of. apply Forall_forall. intros s Hs. apply in_map_iff in Hs as (x & <- & Hx).
  unfold defined in K. rewrite Forall_forall in K. apply (K x Hx).
Qed.
