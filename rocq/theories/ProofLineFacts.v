(** Consequences of the invariant in the vocabulary of the specification. *)
From Coq Require Import ZArith Bool List Lia Sorted Permutation.
From Verif Require Import Num ModelBase ModelAlignment ModelLine SpecLine ListFacts ProofAlignment
  SpecTransmission ProofLine ProofLineInv.
Import ListNotations.
Open Scope num_scope.

Section P.
Context {N : Num} (ok : N -> Prop) (OL : OrdLaws N ok) {P : Type}.
Implicit Types l : Line N P.
Implicit Types env structs : Env N.
Implicit Types cs : list (Connection N).
Implicit Types cables : list (LineCable N P).

Local Notation Inv := (Inv ok).

Lemma reachable_Inv : forall l, reachable ok l -> Inv l.
Proof. intros l (calls & H1 & H2). eapply run_Inv; eauto. Qed.

Lemma Inv_sorted : forall l, Inv l -> strictly_increasing (map ls_station (structures_of l)).
Proof.
  intros l (_ & (_ & S & _) & _). apply increasing_SS. unfold structures_of. rewrite map_map. exact S.
Qed.

Lemma Inv_alignment_sorted : forall l, Inv l -> strictly_increasing (map ap_station (tl_alignment l)).
Proof. intros l ((_ & S) & _). apply increasing_SS. exact S. Qed.

Lemma In_ids_address : forall l id, In id (ids (tl_line_structures l)) -> exists i, address_at l i id.
Proof.
  intros l id H. apply lookup_ids in H as [s H]. apply lookup_In in H.
  apply In_nth_error in H as [i Hi]. exists i, s. auto.
Qed.

Lemma Inv_refs : forall l lc c, Inv l -> In lc (tl_line_cables l) -> In c (lc_connections lc) ->
  exists i id s h, nth_error (tl_line_structures l) i = Some (id, s) /\
    cn_line_structure c = SOwned id /\
    (0 <= cn_index_attachment c)%Z /\
    nth_error (ls_hardwares s) (Z.to_nat (cn_index_attachment c)) = Some (Some h).
Proof.
  intros l lc c (_ & I2 & J & _) Hlc Hc. rewrite Forall_forall in J. destruct (J lc Hlc) as (_ & _ & HW).
  rewrite Forall_forall in HW. destruct (HW c Hc) as (id & s & h & E1 & E2 & E3).
  apply lookup_In in E2. apply In_nth_error in E2 as [i Hi].
  apply vec_at_ok_range in E3 as [E3 E4]. exists i, id, s, h. repeat split; auto; lia.
Qed.

Lemma Inv_addresses : forall l i j id, Inv l -> address_at l i id -> address_at l j id -> i = j.
Proof.
  intros l i j id (_ & (_ & _ & ND & _) & _) (s & Hi) (s' & Hj).
  apply (map_nth_error fst) in Hi. apply (map_nth_error fst) in Hj.
  rewrite NoDup_nth_error in ND. apply ND.
  - apply nth_error_Some. unfold ids. intros K. rewrite K in Hi. discriminate.
  - unfold ids. rewrite Hi, Hj. reflexivity.
Qed.

Lemma NoDup_flat_map_pos : forall A B (f : A -> list B) m a b x y i j c,
  NoDup (flat_map f m) -> nth_error m a = Some x -> nth_error m b = Some y ->
  nth_error (f x) i = Some c -> nth_error (f y) j = Some c -> a = b /\ i = j.
Proof.
  intros A B f. induction m as [|z m IH]; intros a b x y i j c ND Ha Hb Hi Hj; [destruct a; discriminate|].
  simpl in ND.
  assert (Hdis : forall c, In c (f z) -> ~ In c (flat_map f m)).
  { clear -ND. intros c H1 H2. induction (f z) as [|d t IHt]; [contradiction|].
    simpl in ND. inversion ND; subst. destruct H1 as [->|H1]; [|auto].
    apply H3. apply in_or_app; auto. }
  assert (ND1 : NoDup (f z)).
  { clear -ND. induction (f z) as [|d t IHt]; [constructor|]. simpl in ND. inversion ND; subst.
    constructor; auto. intros H. apply H1. apply in_or_app; auto. }
  assert (ND2 : NoDup (flat_map f m)).
  { clear -ND. induction (f z) as [|d t IHt]; auto. simpl in ND. inversion ND; auto. }
  destruct a as [|a], b as [|b]; simpl in Ha, Hb.
  - inversion Ha; inversion Hb; subst. split; auto. rewrite NoDup_nth_error in ND1. apply ND1.
    + apply nth_error_Some. congruence.
    + congruence.
  - inversion Ha; subst. exfalso. apply (Hdis c).
    + eapply nth_error_In; eauto.
    + apply in_flat_map. exists y. split; eapply nth_error_In; eauto.
  - inversion Hb; subst. exfalso. apply (Hdis c).
    + eapply nth_error_In; eauto.
    + apply in_flat_map. exists x. split; eapply nth_error_In; eauto.
  - destruct (IH a b x y i j c ND2 Ha Hb Hi Hj). auto.
Qed.

Lemma Inv_unique : forall l a b i j lc1 lc2 c1 c2 id att, Inv l ->
  nth_error (tl_line_cables l) a = Some lc1 -> nth_error (lc_connections lc1) i = Some c1 ->
  nth_error (tl_line_cables l) b = Some lc2 -> nth_error (lc_connections lc2) j = Some c2 ->
  connects c1 id att -> connects c2 id att -> a = b /\ i = j.
Proof.
  intros l a b i j lc1 lc2 c1 c2 id att (_ & _ & _ & ND) Ha Hi Hb Hj [K1 K2] [K3 K4].
  assert (c1 = c2) by (destruct c1, c2; simpl in *; congruence). subst c2.
  eapply NoDup_flat_map_pos; eauto.
Qed.

Lemma sub_ids_structs : forall is structs, sub is (ids structs) ->
  exists sts, sub sts structs /\ ids sts = is.
Proof.
  intros is structs. revert is. induction structs as [|[i s] structs IH]; simpl; intros is H.
  - inversion H; subst. exists []. auto.
  - inversion H; subst.
    + exists []. auto.
    + destruct (IH _ H2) as (sts & S & E). exists sts. auto.
    + destruct (IH _ H2) as (sts & S & E). exists ((i, s) :: sts). simpl. rewrite E. auto.
Qed.

Lemma Inv_order : forall l lc, Inv l -> In lc (tl_line_cables l) ->
  (2 <= length (lc_connections lc))%nat /\
  forall i j c1 c2, (i < j)%nat -> nth_error (lc_connections lc) i = Some c1 ->
    nth_error (lc_connections lc) j = Some c2 ->
    exists id1 id2 s1 s2, cn_line_structure c1 = SOwned id1 /\ cn_line_structure c2 = SOwned id2 /\
      In (id1, s1) (tl_line_structures l) /\ In (id2, s2) (tl_line_structures l) /\
      (ls_station s1 <? ls_station s2) = true.
Proof.
  intros l lc (_ & (_ & SS & _) & J & _) Hlc. rewrite Forall_forall in J.
  destruct (J lc Hlc) as ((is & E & S) & L & _). split; auto.
  intros i j c1 c2 Hij H1 H2. destruct (sub_ids_structs _ _ S) as (sts & S' & <-).
  apply (map_nth_error cn_line_structure) in H1. apply (map_nth_error cn_line_structure) in H2.
  rewrite E in H1, H2. unfold ids in H1, H2. rewrite map_map in H1, H2.
  rewrite nth_error_map in H1, H2.
  destruct (nth_error sts i) as [[i1 s1]|] eqn:E1; [|discriminate].
  destruct (nth_error sts j) as [[i2 s2]|] eqn:E2; [|discriminate].
  simpl in H1, H2. injection H1 as H1. injection H2 as H2.
  exists i1, i2, s1, s2. repeat split; auto.
  - eapply sub_In; eauto. eapply nth_error_In; eauto.
  - eapply sub_In; eauto. eapply nth_error_In; eauto.
  - assert (SS' := sub_SS _ _ _ _ (sub_map _ _ (fun n => ls_station (snd n)) _ _ S') SS).
    apply increasing_SS in SS'. apply (SS' i j); auto.
    + rewrite nth_error_map, E1. auto.
    + rewrite nth_error_map, E2. auto.
Qed.

(** ** Queries on the containers *)
Lemma HasConnection_exact : forall l i j, (0 <= i < Z.of_nat (length (tl_line_structures l)))%Z ->
  exists b, HasConnection l i j = Ok b /\
   (b = true <-> exists id lc c, address_at l (Z.to_nat i) id /\ In lc (tl_line_cables l) /\
      In c (lc_connections lc) /\ connects c id j).
Proof.
  intros l i j Hi.
  destruct (HasConnection l i j) as [b| |] eqn:E.
  - exists b. split; auto. apply has_connection_iff in E as (id & s & _ & Hn & E). rewrite E. split.
    + intros (lc & c & A & B & C & D). exists id, lc, c. split; [exists s; auto|]. split; auto.
      split; auto. split; auto.
    + intros (id' & lc & c & (s' & Hn') & A & B & C & D). rewrite Hn in Hn'. inversion Hn'; subst.
      exists lc, c. auto.
  - exfalso. revert E. unfold HasConnection, next_deref.
    destruct (Z.ltb_spec i 0); [lia|]. destruct (nth_error _ _); discriminate.
  - exfalso. revert E. unfold HasConnection, next_deref.
    destruct (Z.ltb_spec i 0); [lia|]. destruct (nth_error _ _) eqn:En; [discriminate|].
    apply nth_error_None in En. lia.
Qed.

Lemma IndexLineStructure_exact : forall l p, Inv l ->
  let i := IndexLineStructure l p in
  (i = (-1)%Z /\ (forall k id, address_at l k id -> p <> SOwned id)) \/
  ((0 <= i)%Z /\ exists id, address_at l (Z.to_nat i) id /\ p = SOwned id).
Proof.
  intros l p HI i. destruct p as [|id|s]; simpl in i.
  - left. split; auto. discriminate.
  - destruct (index_of_id_ge (tl_line_structures l) id 0) as [[E1 E2]|(s & E1 & E2)]; [lia| |].
    + left. split; auto. intros k id' (s & Hk) K. inversion K; subst. apply E2.
      apply nth_error_In in Hk. apply (in_map fst) in Hk. exact Hk.
    + right. split; auto. exists id. split; auto. exists s. unfold i. rewrite Z.sub_0_r in E2. auto.
  - left. split; auto. discriminate.
Qed.

(** ** Failing calls change nothing *)
Definition failed {A : Type} (fail : A) (r : outcome A) : Prop := r = Ok fail.

Lemma AddAlignmentPoint_fail : forall l p l', AddAlignmentPoint l p = (l', Ok (-1)%Z) ->
  content_unchanged l l'.
Proof.
  intros l p l' H. unfold AddAlignmentPoint in H.
  change (tl_alignment (stale_all l)) with (tl_alignment l) in H.
  assert (K := AddPoint_fail_same (tl_alignment l) p).
  destruct (AddPoint (tl_alignment l) p) as [a i]. inversion H; subst.
  simpl in K. rewrite K by auto. repeat split.
Qed.

Lemma AddLineCable_fail : forall l lc l' r, AddLineCable l lc = (l', r) ->
  r = Ok (-1)%Z \/ r = Throw -> content_unchanged l l'.
Proof.
  intros l lc l' r H Hr. apply AddLineCable_cases in H as [[-> _]|(pos & -> & _)]; [repeat split|].
  destruct Hr as [Hr|Hr]; inversion Hr. lia.
Qed.

Lemma AddLineStructure_fail : forall l s l', AddLineStructure l s = (l', Ok (-1)%Z) ->
  content_unchanged l l'.
Proof.
  intros l s l' H. apply AddLineStructure_cases in H as [[-> _]|(pos & E & _)]; [repeat split|].
  inversion E. lia.
Qed.

Lemma cleanup_Ok_val : forall A l (v w : A) l', cleanup l v = (l', Ok w) -> w = v.
Proof.
  intros A l v w l' H. unfold cleanup in H.
  destruct (DeleteInvalidLineStructures l) as [l1 []]; try (inversion H; fail).
  destruct (line_DeleteInvalidLineCables l1) as [l2 []]; inversion H; auto.
Qed.

Lemma DeleteAlignmentPoint_fail : forall l i l', DeleteAlignmentPoint l i = (l', Ok false) ->
  content_unchanged l l'.
Proof.
  intros l i l' H. unfold DeleteAlignmentPoint in H.
  change (tl_alignment (stale_all l)) with (tl_alignment l) in H. unfold DeletePoint in H.
  destruct (valid_index (tl_alignment l) i); cbn [andb] in H.
  - destruct (is_boundary_point (tl_alignment l) i); [|inversion H].
    apply cleanup_Ok_val in H. discriminate.
  - inversion H; subst. repeat split.
Qed.

Lemma DeleteLineCable_fail : forall l i l', DeleteLineCable l i = (l', Ok false) ->
  content_unchanged l l'.
Proof.
  intros l i l' H. apply DeleteLineCable_cases in H as [(-> & _)|(E & _)]; [repeat split|discriminate].
Qed.

Lemma DeleteLineStructure_fail : forall l i l', DeleteLineStructure l i = (l', Ok false) ->
  content_unchanged l l'.
Proof.
  intros l i l' H. unfold DeleteLineStructure in H.
  destruct (IsValidLineStructureIndex (stale_structures l) i); cbn [negb] in H.
  - destruct (next_deref _ i) as [[id s]| |]; try (inversion H; fail).
    destruct (line_DeleteInvalidLineCables _) as [l2 []]; inversion H.
  - inversion H; subst. repeat split.
Qed.

Lemma ModifyAlignmentPoint_fail : forall l i p l', Inv l ->
  ModifyAlignmentPoint l i p = (l', Ok (-1)%Z) -> content_unchanged l l'.
Proof.
  intros l i p l' HI H. unfold ModifyAlignmentPoint in H.
  change (tl_alignment (stale_all l)) with (tl_alignment l) in H.
  assert (K := ModifyPoint_fail_same ok OL (tl_alignment l) i p (proj1 HI)).
  destruct (ModifyPoint (tl_alignment l) i p) as [a j]. simpl in K.
  destruct (Z.eqb_spec j (-1)) as [Ej|Hj]; [subst j|]; cbn [negb andb] in H.
  - inversion H; subst. rewrite K by auto. repeat split.
  - destruct (is_boundary_point (tl_alignment l) i).
    + apply cleanup_Ok_val in H. congruence.
    + inversion H; congruence.
Qed.

Lemma ModifyLineStructure_fail : forall l i s l', ModifyLineStructure l i s = (l', Ok false) ->
  content_unchanged l l'.
Proof.
  intros l i s l' H. apply ModifyLineStructure_cases in H as [[-> _]|H]; [repeat split| |discriminate].
  destruct H as (id & s0 & st & _ & _ & _ & _ & _ & _ & _ & c'' & r' & _ & E & _).
  destruct r'; discriminate.
Qed.

(** ** ModifyLineCable *)
Lemma check_intro : forall l cs, NoDup (ids (tl_line_structures l)) ->
  (forall c, In c cs -> (exists id, cn_line_structure c = SOwned id /\ In id (ids (tl_line_structures l))) /\
     ~ In c (flat_map lc_connections (tl_line_cables l))) ->
  AddLineCable_check l cs = Ok true.
Proof.
  intros l cs ND. induction cs as [|c cs IH]; simpl; intros H; auto.
  destruct (H c) as [(id & E1 & E2) E3]; auto.
  rewrite E1. simpl.
  destruct (index_of_id_ge (tl_line_structures l) id 0) as [[_ K]|(s & K1 & K2)]; [lia|contradiction|].
  destruct (Z.eqb_spec (index_of_id (tl_line_structures l) id 0) (-1)); [lia|].
  destruct (HasConnection_exact l (index_of_id (tl_line_structures l) id 0) (cn_index_attachment c)) as (b & Eb & Hb).
  - rewrite Z.sub_0_r in K2.
    assert (Z.to_nat (index_of_id (tl_line_structures l) id 0) < length (tl_line_structures l))%nat
      by (apply nth_error_Some; congruence). lia.
  - rewrite Eb. simpl. destruct b.
    + exfalso. apply E3. destruct Hb as [Hb _]. destruct (Hb eq_refl) as (id' & lc & c' & (s' & A) & B & C & D1 & D2).
      rewrite Z.sub_0_r in K2. rewrite K2 in A. inversion A; subst.
      assert (c' = c) by (destruct c, c'; simpl in *; congruence). subst.
      apply in_flat_map. exists lc; auto.
    + apply IH. intros; apply H; auto.
Qed.

Lemma search_ok : forall l i j cables k, Forall (fun lc => (2 <= length (lc_connections lc))%nat) cables ->
  exists pos, AddLineCable_search l i j cables k = Ok pos /\ (k <= pos <= k + length cables)%nat.
Proof.
  intros l i j cables. induction cables as [|lc cables IH]; intros k H; simpl.
  - exists k. split; auto. lia.
  - inversion H; subst. destruct (lc_connections lc) as [|c cs]; [simpl in H2; lia|]. simpl.
    match goal with |- context [if ?b then _ else _] => destruct b end.
    + exists k. split; auto. lia.
    + destruct (IH (S k) H3) as (pos & E & L). exists pos. split; auto. lia.
Qed.

(** Re-adding the cached cable always succeeds. *)
Lemma readd_cable : forall l n cache, Inv l -> nth_error (tl_line_cables l) n = Some cache ->
  let l1 := with_cables l (remove_at n (tl_line_cables l)) in
  exists pos, (pos <= length (remove_at n (tl_line_cables l)))%nat /\
    AddLineCable l1 cache = (with_cables l1 (insert_at pos cache (tl_line_cables l1)), Ok (Z.of_nat pos)).
Proof.
  intros l n cache (I1 & I2 & J & ND) Hn l1.
  assert (Ln : (n < length (tl_line_cables l))%nat) by (apply nth_error_Some; congruence).
  assert (HJ := J). rewrite Forall_forall in HJ.
  destruct (HJ cache) as (J1 & J2 & J3); [eapply nth_error_In; eauto|].
  unfold AddLineCable. simpl.
  assert (V : ValidateConnections (tl_line_structures l) (lc_connections cache) = Ok true).
  { unfold ValidateConnections. destruct (Nat.ltb_spec (length (lc_connections cache)) 2); [lia|].
    rewrite (validate_hw_ok _ _ J3). auto. }
  rewrite V.
  assert (C : AddLineCable_check l1 (lc_connections cache) = Ok true).
  { apply check_intro; [apply I2|]. intros c Hc. split.
    - apply (conns_in_owned _ _ _ J1 Hc).
    - simpl. intros K. apply in_flat_map in K as (lc & Hlc & Hc').
      assert (K : exists m, m <> n /\ nth_error (tl_line_cables l) m = Some lc).
      { apply In_remove_at_iff in Hlc; auto. }
      destruct K as (m & Hm & Hlc').
      apply In_nth_error in Hc as [i Hi]. apply In_nth_error in Hc' as [j Hj].
      destruct (NoDup_flat_map_pos _ _ _ _ _ _ _ _ _ _ _ ND Hn Hlc' Hi Hj). congruence. }
  rewrite C.
  destruct (lc_connections cache) as [|c cs] eqn:Ec; [simpl in J2; lia|]. cbn [front].
  destruct (search_ok l1 (IndexLineStructure l1 (cn_line_structure c)) (cn_index_attachment c)
              (remove_at n (tl_line_cables l)) 0) as (pos & E & L).
  { apply Forall_forall. intros lc Hlc. apply In_remove_at in Hlc. apply HJ in Hlc. tauto. }
  rewrite E. exists pos. split; [lia|]. reflexivity.
Qed.

Lemma insert_remove_perm : forall A n pos (x : A) m, nth_error m n = Some x ->
  Permutation m (insert_at pos x (remove_at n m)).
Proof.
  intros A n pos x m Hn.
  assert (Ln : (n < length m)%nat) by (apply nth_error_Some; congruence).
  assert (E := split_nth n m x Ln). rewrite (nth_error_nth _ _ _ Hn) in E.
  transitivity (x :: remove_at n m).
  - rewrite E at 1. unfold remove_at. symmetry. apply Permutation_middle.
  - unfold insert_at. rewrite <- (firstn_skipn pos (remove_at n m)) at 1. apply Permutation_middle.
Qed.

Lemma ModifyLineCable_fail : forall l i lc l', Inv l -> ModifyLineCable l i lc = (l', Ok (-1)%Z) ->
  tl_alignment l' = tl_alignment l /\ tl_line_structures l' = tl_line_structures l /\
  Permutation (tl_line_cables l) (tl_line_cables l').
Proof.
  intros l i lc l' HI H. apply ModifyLineCable_cases in H as [(-> & _)|(cache & Hi & Hn & H)];
    [auto| |discriminate].
  cbn zeta in H.
  destruct H as [(j & Hj & _ & E)|[[_ E]|[(j & _ & EA & _)|(_ & _ & E)]]]; try congruence.
  destruct (readd_cable l (Z.to_nat i) cache HI Hn) as (pos & Hp & E). cbn zeta in E.
  rewrite E in EA. inversion EA; subst. simpl. split; auto. split; auto.
  apply insert_remove_perm; auto.
Qed.

End P.
