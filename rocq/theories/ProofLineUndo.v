(** Proofs for C195: structures and cables just added can be deleted again. *)
From Coq Require Import ZArith Bool List Lia Sorted.
From Verif Require Import Num NumFacts ModelBase ModelAlignment ModelLine SpecLine ListFacts ProofAlignment
  SpecTransmission ProofLine ProofLineInv ProofLineFacts ProofLineCoord ProofLineSafe ProofConn ProofLineCopy ProofLineContracts.
Import ListNotations.
Open Scope num_scope.

Lemma insertion_unique : forall A (l l' l'' : list A) k x y,
  is_insertion l k x l' -> is_removal l' k y l'' -> l'' = l.
Proof.
  intros A l l' l'' k x y (a & b & -> & -> & E1) (c & d & -> & E & E2).
  assert (L : length a = length c) by lia. clear E1 E2 k.
  revert c L E. induction a as [|h a IH]; intros [|g c] L E; simpl in *; try discriminate L.
  - congruence.
  - injection E as -> E. injection L as L. f_equal. apply IH; auto.
Qed.

Lemma insertion_range : forall A (l l' : list A) k x, is_insertion l k x l' ->
  (0 <= k < Z.of_nat (length l'))%Z.
Proof. intros A l l' k x (a & b & -> & -> & ->). rewrite app_length. simpl. lia. Qed.

Section P.
Context {N : Num} (ok : N -> Prop) (OL : OrdLaws N ok) {P : Type}.
Implicit Types l : Line N P.

Lemma filter_all : forall A (p : A -> bool) m, (forall x, In x m -> p x = true) -> filter p m = m.
Proof.
  intros A p m H. induction m as [|a m IH]; auto. simpl. rewrite H by (left; auto).
  f_equal. apply IH. intros; apply H; right; auto.
Qed.

(** Nothing is dropped if the structures are those of the line. *)
Lemma restrict_all : forall l l'', Inv ok l -> tl_line_structures l'' = tl_line_structures l ->
  restrict_cables (in_line l'') (tl_line_cables l) = tl_line_cables l.
Proof.
  intros l l'' (_ & _ & I3) E.
  assert (M : map (fun lc => mkLC (filter (in_line l'') (lc_connections lc)) (lc_payload lc)) (tl_line_cables l)
              = tl_line_cables l).
  { rewrite <- (map_id (tl_line_cables l)) at 2. apply map_ext_in. intros lc Hlc.
    rewrite filter_all; [destruct lc; reflexivity|]. intros c Hc.
    destruct (conn_ids _ _ _ _ (cables_ok_refs _ _ I3) Hlc Hc) as (id & E1 & E2).
    unfold in_line. rewrite E1, E. apply existsb_exists. exists id. split; [exact E2|apply Nat.eqb_refl]. }
  unfold restrict_cables. rewrite M. apply filter_all. intros lc Hlc. apply Nat.leb_le.
  destruct I3 as [H _]. rewrite Forall_forall in H. apply (H lc Hlc).
Qed.

Lemma add_structure_undone : forall l l' s k, constructible ok l -> ok (ls_station s) -> slots_match s ->
  AddLineStructure l s = (l', Ok k) -> k <> (-1)%Z ->
  exists l'', DeleteLineStructure l' k = (l'', Ok true) /\ content_unchanged l l''.
Proof.
  intros l l' s k C Hs Hm H Hk.
  assert (HI := constructible_Inv ok OL l C).
  assert (HI' : Inv ok l').
  { apply (constructible_Inv ok OL). apply (constructible_call ok l (CAddLineStructure s) l' (Ok tt) C).
    - split; auto.
    - simpl. rewrite H. reflexivity.
    - discriminate. }
  destruct (AddLineStructure_contract ok OL l s l' k HI Hs H) as (A & B & [(K & _)|(id & I & _)]); [contradiction|].
  destruct (DeleteLineStructure l' k) as [l'' r] eqn:D.
  destruct (DeleteLineStructure_exact ok l' k l'' r HI' D) as [(-> & Q & _)|(-> & A' & (n & Q) & B')].
  - exfalso. apply Q. eapply insertion_range; eauto.
  - exists l''. split; auto. assert (E := insertion_unique _ _ _ _ _ _ _ I Q).
    split; [congruence|]. split; [exact E|]. rewrite B', B. apply restrict_all; auto.
Qed.

Lemma add_cable_undone : forall l l' lc k, constructible ok l ->
  AddLineCable l lc = (l', Ok k) -> k <> (-1)%Z ->
  exists l'', DeleteLineCable l' k = (l'', Ok true) /\ content_unchanged l l''.
Proof.
  intros l l' lc k C H Hk. assert (HI := constructible_Inv ok OL l C).
  destruct (AddLineCable_contract ok l lc l' k HI H) as [(K & _)|(I & A & B & _)]; [contradiction|].
  assert (R := insertion_range _ _ _ _ _ I).
  unfold DeleteLineCable, IsValidLineCableIndex.
  replace (valid_index (tl_line_cables l') k) with true by (symmetry; apply valid_index_true; exact R).
  simpl. eexists. split; [reflexivity|]. split; [exact A|]. split; [exact B|]. simpl.
  assert (L : (Z.to_nat k < length (tl_line_cables l'))%nat) by lia.
  assert (Q := remove_at_spec (Z.to_nat k) (tl_line_cables l') lc L).
  rewrite Z2Nat.id in Q by lia. exact (insertion_unique _ _ _ _ _ _ _ I Q).
Qed.
End P.
