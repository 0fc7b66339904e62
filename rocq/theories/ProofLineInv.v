(** The invariant holds in every reachable state of the transmission line. *)
From Coq Require Import ZArith Bool List Lia Sorted Permutation.
From Verif Require Import Num ModelBase ModelAlignment ModelLine SpecLine ListFacts ProofAlignment SpecTransmission ProofLine.
Import ListNotations.
Open Scope num_scope.

Section P.
Context {N : Num} (ok : N -> Prop) (OL : OrdLaws N ok) {P : Type}.
Implicit Types l : Line N P.
Implicit Types env structs : Env N.
Implicit Types cs : list (Connection N).
Implicit Types cables : list (LineCable N P).

Local Notation Inv := (Inv ok).

Lemma Inv_empty : Inv (@Line_empty N P).
Proof.
  split; [split; constructor|]. split.
  - repeat split; constructor.
  - split; constructor.
Qed.

Lemma list_set_stations : forall n id s structs,
  stations (list_set n (id, s) structs) = list_set n (ls_station s) (stations structs).
Proof.
  intros. unfold stations, list_set. rewrite map_app. cbn [map]. rewrite firstn_map, skipn_map. auto.
Qed.

Lemma Forall_list_set : forall A (Q : A -> Prop) n x m, Q x -> Forall Q m -> Forall Q (list_set n x m).
Proof.
  intros A Q n x m Hx Hm. unfold list_set. rewrite <- (firstn_skipn (S n) m) in Hm.
  apply Forall_app in Hm as [H1 H2]. apply Forall_app. split; [|constructor; auto].
  apply Forall_forall. intros y Hy. rewrite Forall_forall in H1. apply H1.
  clear -Hy. revert n Hy. induction m as [|a m IH]; intros [|n] Hy; try contradiction.
  simpl in Hy. simpl. destruct Hy as [->|Hy]; auto. right. apply IH. exact Hy.
Qed.

Lemma not_le_lt : forall a b, ok a -> ok b -> (a <=? b) = false -> lt b a.
Proof. intros a b Ha Hb H. rewrite (ol_le _ _ OL) in H by auto. apply negb_false_iff in H. exact H. Qed.

Lemma structs_ok_set : forall structs next n id s s0, structs_ok ok structs next ->
  nth_error structs n = Some (id, s0) -> ok (ls_station s) -> wf_structure s ->
  (n <> 0%nat -> exists nb, nth_error structs (n - 1) = Some nb /\
      (ls_station s <=? ls_station (snd nb)) = false) ->
  ((n + 1 < length structs)%nat -> exists na, nth_error structs (n + 1) = Some na /\
      (ls_station (snd na) <=? ls_station s) = false) ->
  structs_ok ok (list_set n (id, s) structs) next.
Proof.
  intros structs next n id s s0 (A & B & C & D & E) Hn Hs Hw Hb Ha.
  assert (L : (n < length structs)%nat) by (apply nth_error_Some; congruence).
  assert (Hst : forall x, In x structs -> ok (ls_station (snd x))).
  { intros x Hx. rewrite Forall_forall in A. apply A. unfold stations.
    apply in_map_iff. exists x; auto. }
  unfold structs_ok. rewrite list_set_stations, (list_set_ids n id s s0) by auto.
  split; [apply Forall_list_set; auto|]. split; [|split; [auto|split; [auto|apply Forall_list_set; auto]]].
  apply (SS_list_set ok OL); auto.
  - unfold stations. rewrite map_length. auto.
  - intros H. destruct (Hb H) as (nb & K1 & K2). exists (ls_station (snd nb)). split.
    + unfold stations. erewrite map_nth_error; eauto.
    + apply not_le_lt; auto. apply Hst. eapply nth_error_In; eauto.
  - unfold stations. rewrite map_length. intros H. destruct (Ha H) as (na & K1 & K2).
    exists (ls_station (snd na)). split.
    + erewrite map_nth_error; eauto.
    + apply not_le_lt; auto. apply Hst. eapply nth_error_In; eauto.
Qed.

(** The connections that survive are in range of the new hardware slots. *)
Lemma strip_in_range : forall structs cables n id s s0 st,
  NoDup (ids structs) -> cables_refs structs cables -> nth_error structs n = Some (id, s0) ->
  ls_structure s = Some st -> wf_structure s ->
  Forall (fun lc => Forall (in_range (list_set n (id, s) structs)) (lc_connections lc))
    (strip (fun c => negb (points_to id c &&
        (Z.of_nat (length (st_attachments st)) <=? cn_index_attachment c)%Z)) cables).
Proof.
  intros structs cables n id s s0 st ND [HR _] Hn Est Hw.
  unfold strip. apply Forall_forall. intros lc Hlc. apply in_map_iff in Hlc as (lc0 & <- & Hlc0).
  simpl. apply Forall_forall. intros c Hc. apply filter_In in Hc as [Hc Hkeep].
  rewrite Forall_forall in HR. destruct (HR lc0 Hlc0) as [_ HW]. rewrite Forall_forall in HW.
  destruct (HW c Hc) as (j & sj & h & E1 & E2 & E3).
  apply vec_at_ok_range in E3 as [E3 _].
  unfold in_range. rewrite E1. simpl.
  destruct (Nat.eq_dec j id) as [->|Hj].
  - rewrite (list_set_lookup_same n id s s0) by auto. exists s. split; auto.
    unfold wf_structure, slots_match in Hw. rewrite Est in Hw. rewrite Hw.
    apply negb_true_iff in Hkeep.
    assert (K : points_to id c = true) by (apply points_to_iff; auto).
    rewrite K in Hkeep. simpl in Hkeep. apply Z.leb_gt in Hkeep. lia.
  - rewrite (list_set_lookup_other n id s s0) by auto. rewrite E2. exists sj. split; auto.
Qed.

Lemma ModifyLineStructure_Inv : forall l i s l' r, Inv l -> ok (ls_station s) -> wf_structure s ->
  ModifyLineStructure l i s = (l', r) -> r <> UB -> (r = Ok true \/ r = Ok false) /\ Inv l'.
Proof.
  intros l i s l' r HI Hs Hw H Hr. assert (HI' := HI). destruct HI' as (I1 & I2 & I3).
  apply ModifyLineStructure_cases in H as
    [[-> ->]|(id & s0 & st & Hi & Hn & Est & Hb & Ha & _ & _ & cables'' & r' & ED & -> & ->)]; [| |exact Hr].
  { split; [auto|]. exact HI. }
  assert (L : (Z.to_nat i < length (tl_line_structures l))%nat) by (apply nth_error_Some; congruence).
  assert (I2' : structs_ok ok (list_set (Z.to_nat i) (id, s) (tl_line_structures l)) (tl_next l)).
  { apply structs_ok_set with (s0 := s0); auto.
    - intros K. destruct Hb as (nb & K1 & K2); [lia|]. exists nb.
      replace (Z.to_nat i - 1)%nat with (Z.to_nat (i - 1)) by lia. auto.
    - intros K. destruct Ha as (na & K1 & K2); [lia|]. exists na.
      replace (Z.to_nat i + 1)%nat with (Z.to_nat (i + 1)) by lia. auto. }
  assert (ND : NoDup (ids (tl_line_structures l))) by apply I2.
  assert (RG := strip_in_range _ _ _ _ _ _ _ ND (cables_ok_refs _ _ I3) Hn Est Hw).
  assert (NT := delete_invalid_no_throw _ _ RG). rewrite ED in NT. simpl in NT.
  destruct r' as [[]| |]; simpl in Hr; try congruence. simpl. split; auto.
  apply delete_invalid_ok in ED as [-> F].
  split; [|split]; simpl; auto.
  split.
  - apply Forall_forall. intros lc Hlc. rewrite Forall_forall in F. assert (V := F lc Hlc).
    apply validate_true in V as [V1 V2]. apply filter_In in Hlc as [Hlc _].
    unfold strip in Hlc. apply in_map_iff in Hlc as (lc0 & <- & Hlc0). simpl in *.
    destruct I3 as [J _]. rewrite Forall_forall in J. destruct (J lc0 Hlc0) as (J1 & J2 & J3).
    split; [|split; auto].
    + apply conns_in_filter. eapply conns_in_sub; [|exact J1].
      rewrite (list_set_ids _ id s s0) by auto. apply sub_refl.
    + apply validate_loop_hw in V2. rewrite Forall_forall in V2. apply Forall_forall. intros c Hc.
      destruct (V2 c Hc) as (s' & h & D1 & D2).
      apply filter_In in Hc as [Hc _]. rewrite Forall_forall in J3.
      destruct (J3 c Hc) as (j & sj & hj & E1 & _). rewrite E1 in D1. simpl in D1.
      destruct (lookup _ j) eqn:EL; inversion D1; subst. exists j, s', h. auto.
  - eapply sub_NoDup; [apply flat_map_filter_sub|].
    eapply sub_NoDup; [apply flat_map_strip|]. apply I3.
Qed.

(** ** DeleteLineStructure *)
Lemma remove_filter : forall structs n id s, NoDup (ids structs) ->
  nth_error structs n = Some (id, s) ->
  remove_at n structs = filter (fun x => negb (Nat.eqb (fst x) id)) structs /\
  filter (fun x => Nat.eqb (fst x) id) structs = [(id, s)].
Proof.
  intros structs n. revert structs. unfold remove_at.
  induction n; intros [|[i q] structs] id s ND Hn; simpl in Hn; try discriminate.
  - inversion Hn; subst. simpl in *. rewrite Nat.eqb_refl. simpl. inversion ND; subst.
    assert (K : forall x, In x structs -> Nat.eqb (fst x) id = false).
    { intros x Hx. apply Nat.eqb_neq. intros <-. apply H1. unfold ids. apply in_map; auto. }
    clear -K. split.
    + induction structs as [|x structs IH]; simpl; auto. rewrite K by (simpl; auto). simpl.
      f_equal. apply IH. intros; apply K; simpl; auto.
    + f_equal. induction structs as [|x structs IH]; simpl; auto. rewrite K by (simpl; auto).
      apply IH. intros; apply K; simpl; auto.
  - simpl in ND. inversion ND; subst. destruct (IHn _ _ _ H2 Hn) as [E1 E2].
    assert (i <> id).
    { intros ->. apply H1. apply nth_error_In in Hn. apply (in_map fst) in Hn. exact Hn. }
    simpl. rewrite (proj2 (Nat.eqb_neq i id)) by auto. simpl. rewrite <- E1, E2. auto.
Qed.

Lemma delete_conns_strip : forall cables id,
  DeleteConnectionsFromStructure cables id = strip (fun c => negb (points_to id c)) cables.
Proof. reflexivity. Qed.

Lemma DeleteLineStructure_cases : forall l i l' r, Inv l -> DeleteLineStructure l i = (l', r) ->
  (l' = stale_structures l /\ r = Ok false /\ ~ (0 <= i < Z.of_nat (length (tl_line_structures l)))%Z) \/
  (r = Ok true /\ exists id s, nth_error (tl_line_structures l) (Z.to_nat i) = Some (id, s) /\
    (0 <= i)%Z /\
    l' = with_structures (with_cables (stale_structures l)
           (filter long_enough (strip (fun c => negb (points_to id c)) (tl_line_cables l))))
           (remove_at (Z.to_nat i) (tl_line_structures l)) (tl_next l)).
Proof.
  intros l i l' r (I1 & I2 & I3) H. unfold DeleteLineStructure in H.
  change (IsValidLineStructureIndex (stale_structures l) i) with
    (valid_index (tl_line_structures l) i) in H.
  destruct (valid_index (tl_line_structures l) i) eqn:EV; cbn [negb] in H.
  2:{ inversion H; subst. left. repeat split; auto. rewrite <- valid_index_true. congruence. }
  apply valid_index_true in EV.
  change (tl_line_structures (stale_structures l)) with (tl_line_structures l) in H.
  destruct (nth_error (tl_line_structures l) (Z.to_nat i)) as [[id s]|] eqn:En;
    [|apply nth_error_None in En; lia].
  assert (Ni : next_deref (tl_line_structures l) i = Ok (id, s)) by (apply next_deref_ok; split; auto; lia).
  rewrite Ni in H. unfold line_DeleteInvalidLineCables in H.
  change (tl_line_cables (stale_structures l)) with (tl_line_cables l) in H.
  rewrite delete_conns_strip in H. simpl in H.
  rewrite delete_invalid_hw_ok in H.
  2:{ apply refs_forall_hw, cables_refs_strip, cables_ok_refs, I3. }
  inversion H; subst. right. split; auto. exists id, s. repeat split; auto; lia.
Qed.

Lemma DeleteLineStructure_Inv : forall l i l' r, Inv l -> DeleteLineStructure l i = (l', r) ->
  (r = Ok true \/ r = Ok false) /\ Inv l'.
Proof.
  intros l i l' r HI H. assert (HI' := HI). destruct HI' as (I1 & I2 & I3).
  apply DeleteLineStructure_cases in H as [(-> & -> & _)|(-> & id & s & Hn & _ & ->)]; [| |exact HI].
  { split; [auto|]. exact HI. }
  split; auto.
  assert (ND : NoDup (ids (tl_line_structures l))) by apply I2.
  destruct (remove_filter _ _ _ _ ND Hn) as [E1 E2].
  assert (R := refs_drop ok _ _ _ (fun x => Nat.eqb (fst x) id) I2 (cables_ok_refs _ _ I3)).
  rewrite E2 in R. cbn [existsb fst] in R. rewrite <- E1 in R.
  split; [|split]; simpl; auto.
  - eapply structs_ok_sub; [apply sub_remove_at|exact I2].
  - apply cables_refs_long.
    assert (S : strip (fun c => negb (points_to id c)) (tl_line_cables l) =
                strip (fun c => negb (points_to id c || false)) (tl_line_cables l)).
    { unfold strip. apply map_ext. intros lc. f_equal. apply filter_ext. intros c. rewrite orb_false_r. auto. }
    rewrite S. exact R.
Qed.

(** ** The other calls *)
Lemma stale_all_Inv : forall l, Inv l -> Inv (stale_all l).
Proof. intros. apply (same_content_Inv ok l); auto. repeat split; auto. Qed.

Lemma AddAlignmentPoint_Inv : forall l p, Inv l -> ok (ap_station p) ->
  Inv (fst (AddAlignmentPoint l p)).
Proof.
  intros l p (I1 & I2 & I3) Hp. unfold AddAlignmentPoint.
  assert (K := AddPoint_sorted ok OL (tl_alignment l) p I1 Hp).
  change (tl_alignment (stale_all l)) with (tl_alignment l).
  destruct (AddPoint (tl_alignment l) p) as [a i]. simpl in *. split; auto.
Qed.

Lemma AddLineStructure_cases : forall l s l' r, AddLineStructure l s = (l', r) ->
  (l' = stale_structures l /\ (r = Ok (-1)%Z \/ r = Throw \/ r = UB)) \/
  (exists pos, r = Ok (Z.of_nat pos) /\ IsValidStation (tl_alignment l) (ls_station s) = Ok true /\
     find_slot (ls_station s) (stations (tl_line_structures l)) 0 = Some pos /\
     l' = with_structures (stale_structures l)
            (insert_at pos (tl_next l, s) (tl_line_structures l)) (S (tl_next l))).
Proof.
  intros l s l' r H. unfold AddLineStructure in H.
  change (tl_alignment (stale_structures l)) with (tl_alignment l) in H.
  change (tl_line_structures (stale_structures l)) with (tl_line_structures l) in H.
  change (tl_next (stale_structures l)) with (tl_next l) in H.
  destruct (IsValidStation (tl_alignment l) (ls_station s)) as [[]| |];
    try (inversion H; subst; left; auto; fail).
  rewrite AddLineStructure_search_slot in H.
  destruct (find_slot _ _ 0) as [pos|] eqn:E; inversion H; subst; [|left; auto].
  right. exists pos. repeat split; auto.
Qed.

Lemma AddLineStructure_Inv : forall l s l' r, Inv l -> ok (ls_station s) -> wf_structure s ->
  AddLineStructure l s = (l', r) -> Inv l'.
Proof.
  intros l s l' r HI Hs Hw H. assert (HI' := HI). destruct HI' as (I1 & I2 & I3).
  apply AddLineStructure_cases in H as [[-> _]|(pos & -> & _ & EF & ->)].
  { exact HI. }
  assert (I2' := structs_ok_insert ok OL _ _ _ _ I2 Hs Hw EF).
  split; [|split]; simpl; auto. eapply cables_ok_insert; eauto.
Qed.

Lemma with_alignment_Inv : forall l a, Inv l -> sorted_pts ok a -> Inv (with_alignment l a).
Proof. intros l a (I1 & I2 & I3) H. split; auto. Qed.

Lemma DeleteAlignmentPoint_Inv : forall l i l' r, Inv l -> DeleteAlignmentPoint l i = (l', r) ->
  r <> UB -> (exists b, r = Ok b) /\ Inv l'.
Proof.
  intros l i l' r HI H Hr. unfold DeleteAlignmentPoint in H.
  assert (K := DeletePoint_sorted ok (tl_alignment l) i (proj1 HI)).
  change (tl_alignment (stale_all l)) with (tl_alignment l) in H.
  destruct (DeletePoint (tl_alignment l) i) as [a b]. simpl in K.
  assert (HI' : Inv (with_alignment (stale_all l) a)) by (apply with_alignment_Inv; auto; apply stale_all_Inv; auto).
  destruct (b && is_boundary_point (tl_alignment l) i).
  - eapply cleanup_Inv in H as [-> H]; eauto.
  - inversion H; subst. eauto.
Qed.

Lemma ModifyAlignmentPoint_Inv : forall l i p l' r, Inv l -> ok (ap_station p) ->
  ModifyAlignmentPoint l i p = (l', r) -> r <> UB -> (exists b, r = Ok b) /\ Inv l'.
Proof.
  intros l i p l' r HI Hp H Hr. unfold ModifyAlignmentPoint in H.
  assert (K := ModifyPoint_sorted ok OL (tl_alignment l) i p (proj1 HI) Hp).
  change (tl_alignment (stale_all l)) with (tl_alignment l) in H.
  destruct (ModifyPoint (tl_alignment l) i p) as [a b]. simpl in K.
  assert (HI' : Inv (with_alignment (stale_all l) a)) by (apply with_alignment_Inv; auto; apply stale_all_Inv; auto).
  destruct (negb (b =? -1)%Z && is_boundary_point (tl_alignment l) i).
  - eapply cleanup_Inv in H as [-> H]; eauto.
  - inversion H; subst. eauto.
Qed.

Lemma DeleteLineCable_Inv : forall l i, Inv l -> Inv (fst (DeleteLineCable l i)).
Proof.
  intros l i (I1 & I2 & I3 & I4). unfold DeleteLineCable.
  destruct (negb (IsValidLineCableIndex l i)); [split; [|split; [|split]]; auto|].
  split; [|split; [|split]]; simpl; auto.
  - eapply sub_Forall; [apply sub_remove_at|auto].
  - eapply sub_NoDup; [|exact I4].
    generalize (tl_line_cables l) (Z.to_nat i). clear. unfold remove_at.
    induction l as [|lc cables IH]; intros [|n]; simpl; auto.
    + induction (lc_connections lc); simpl; auto using sub_refl.
    + specialize (IH n). clear -IH. induction (lc_connections lc); simpl; auto.
Qed.

Lemma add_built_cable_Inv : forall l requests cs pl l' r, Inv l ->
  build_cable (tl_line_structures l) [] requests = Ok cs ->
  AddLineCable l (mkLC cs pl) = (l', r) -> Inv l'.
Proof.
  intros l requests cs pl l' r HI HB H.
  eapply (add_cable_Inv ok); [exact HI|right; exact I|exact H|].
  simpl. intros _ EC. eapply (build_conns_in ok OL); [apply HI|exact HB|].
  intros c Hc. apply (check_true _ _ EC c Hc).
Qed.

(** Deleting a cable keeps the structures. *)
Lemma DeleteLineCable_cases : forall l i l' r, DeleteLineCable l i = (l', r) ->
  (l' = l /\ r = Ok false /\ ~ (0 <= i < Z.of_nat (length (tl_line_cables l)))%Z) \/
  (r = Ok true /\ (0 <= i < Z.of_nat (length (tl_line_cables l)))%Z /\
   l' = with_cables l (remove_at (Z.to_nat i) (tl_line_cables l))).
Proof.
  intros l i l' r H. unfold DeleteLineCable, IsValidLineCableIndex in H.
  destruct (valid_index (tl_line_cables l) i) eqn:EV; cbn [negb] in H; inversion H; subst.
  - right. apply valid_index_true in EV. auto.
  - left. rewrite <- valid_index_true. repeat split; auto. congruence.
Qed.

Lemma ModifyLineCable_cases : forall l i lc l' r, ModifyLineCable l i lc = (l', r) -> r <> UB ->
  (l' = l /\ r = Ok (-1)%Z /\ ~ (0 <= i < Z.of_nat (length (tl_line_cables l)))%Z) \/
  (exists cache, (0 <= i)%Z /\ nth_error (tl_line_cables l) (Z.to_nat i) = Some cache /\
    let l1 := with_cables l (remove_at (Z.to_nat i) (tl_line_cables l)) in
    ((exists j, j <> (-1)%Z /\ AddLineCable l1 lc = (l', Ok j) /\ r = Ok j) \/
     (AddLineCable l1 lc = (l', Throw) /\ r = Throw) \/
     (exists j, AddLineCable l1 lc = (l1, Ok (-1)%Z) /\ AddLineCable l1 cache = (l', Ok j) /\ r = Ok (-1)%Z) \/
     (AddLineCable l1 lc = (l1, Ok (-1)%Z) /\ AddLineCable l1 cache = (l', Throw) /\ r = Throw))).
Proof.
  intros l i lc l' r H Hr. unfold ModifyLineCable in H.
  destruct (IsValidLineCableIndex l i) eqn:EV; cbn [negb] in H.
  2:{ inversion H; subst. left. repeat split; auto. unfold IsValidLineCableIndex in EV.
      rewrite <- valid_index_true. congruence. }
  unfold IsValidLineCableIndex in EV. assert (EV' := EV). apply valid_index_true in EV.
  destruct (nth_error (tl_line_cables l) (Z.to_nat i)) as [cache|] eqn:En;
    [|apply nth_error_None in En; lia].
  assert (Ni : next_deref (tl_line_cables l) i = Ok cache) by (apply next_deref_ok; split; auto; lia).
  rewrite Ni in H. unfold DeleteLineCable, IsValidLineCableIndex in H. rewrite EV' in H. cbn [negb] in H.
  right. exists cache. split; [lia|]. split; auto. cbn zeta.
  set (l1 := with_cables l (remove_at (Z.to_nat i) (tl_line_cables l))) in *.
  destruct (AddLineCable l1 lc) as [l2 r2] eqn:EA.
  destruct r2 as [j| |]; [|inversion H; subst; auto|inversion H; subst; congruence].
  destruct (Z.eqb_spec j (-1)) as [->|Hj].
  - assert (l2 = l1).
    { apply AddLineCable_cases in EA as [[-> _]|(pos & E & _)]; auto. inversion E. lia. }
    subst l2. destruct (AddLineCable l1 cache) as [l3 r3].
    destruct r3 as [k| |]; inversion H; subst.
    + right. right. left. exists k. auto.
    + right. right. right. auto.
    + congruence.
  - inversion H; subst. left. exists j. auto.
Qed.

Lemma ModifyLineCable_Inv : forall l i requests cs pl l' r, Inv l ->
  build_cable (tl_line_structures l) [] requests = Ok cs ->
  ModifyLineCable l i (mkLC cs pl) = (l', r) -> r <> UB -> Inv l'.
Proof.
  intros l i requests cs pl l' r HI HB H Hr.
  apply ModifyLineCable_cases in H as [(-> & _)|(cache & Hi & Hn & H)]; auto.
  cbn zeta in H. set (l1 := with_cables l (remove_at (Z.to_nat i) (tl_line_cables l))) in *.
  assert (HI1 : Inv l1).
  { assert (K := DeleteLineCable_Inv l i HI). unfold DeleteLineCable, IsValidLineCableIndex in K.
    assert (EV : valid_index (tl_line_cables l) i = true).
    { apply valid_index_true. assert (Z.to_nat i < length (tl_line_cables l))%nat by
        (apply nth_error_Some; congruence). lia. }
    rewrite EV in K. exact K. }
  assert (HC : conns_in (tl_line_structures l1) (lc_connections cache)).
  { destruct HI as (_ & _ & J & _). rewrite Forall_forall in J. apply (J cache).
    eapply nth_error_In; eauto. }
  destruct H as [(j & _ & EA & _)|[[EA _]|[(j & _ & EA & _)|(_ & EA & _)]]].
  - eapply add_built_cable_Inv; [exact HI1|exact HB|exact EA].
  - eapply add_built_cable_Inv; [exact HI1|exact HB|exact EA].
  - eapply (add_cable_Inv ok); [exact HI1|right; exact I|exact EA|auto].
  - eapply (add_cable_Inv ok); [exact HI1|right; exact I|exact EA|auto].
Qed.

Lemma Line_Validate_content : forall l parts l' r, Line_Validate l parts = (l', r) ->
  same_content l l' /\ tl_next l' = tl_next l /\ tl_origin l' = tl_origin l.
Proof.
  intros l parts l' r H. unfold Line_Validate in H.
  destruct parts; [|inversion H; subst; unfold same_content; auto..].
  destruct (Update l) as [l1 r1] eqn:E. apply Update_content in E.
  destruct r1; inversion H; subst; auto.
Qed.

Lemma drop_eq : forall A (x : Line N P * outcome A) l' r, drop x = (l', r) ->
  exists r0, x = (l', r0) /\ r = omap (fun _ => tt) r0.
Proof. intros A [l0 r0] l' r H. unfold drop in H. simpl in H. inversion H; subst. eauto. Qed.

Lemma omap_UB : forall A B (f : A -> B) x, omap f x <> UB -> x <> UB.
Proof. intros A B f [] H; simpl in *; congruence. Qed.

Lemma step_Inv : forall l c l' r, Inv l -> line_call_ok ok c -> line_step l c = (l', r) -> r <> UB -> Inv l'.
Proof.
  intros l c l' r HI Hc H Hr.
  destruct c; simpl in H, Hc.
  - apply drop_eq in H as (r0 & H & ->). assert (K := AddAlignmentPoint_Inv l p HI Hc).
    rewrite H in K. auto.
  - destruct (build_cable _ _ _) eqn:EB; try (inversion H; subst; auto; fail).
    apply drop_eq in H as (r0 & H & ->). eapply add_built_cable_Inv; eauto.
  - apply drop_eq in H as (r0 & H & ->). destruct Hc. eapply AddLineStructure_Inv; eauto.
  - apply drop_eq in H as (r0 & H & ->). apply omap_UB in Hr. eapply DeleteAlignmentPoint_Inv; eauto.
  - apply drop_eq in H as (r0 & H & ->). assert (K := DeleteLineCable_Inv l index HI). rewrite H in K. auto.
  - apply drop_eq in H as (r0 & H & ->). eapply DeleteLineStructure_Inv; eauto.
  - apply drop_eq in H as (r0 & H & ->). apply omap_UB in Hr. eapply ModifyAlignmentPoint_Inv; eauto.
  - destruct (build_cable _ _ _) eqn:EB; try (inversion H; subst; auto; fail).
    apply drop_eq in H as (r0 & H & ->). apply omap_UB in Hr. eapply ModifyLineCable_Inv; eauto.
  - apply drop_eq in H as (r0 & H & ->). apply omap_UB in Hr. destruct Hc. eapply ModifyLineStructure_Inv; eauto.
  - inversion H; subst. apply (same_content_Inv ok l); auto. repeat split; auto.
  - apply drop_eq in H as (r0 & H & ->). apply query_content in H as (H1 & H2 & _). eapply same_content_Inv; eauto.
  - apply drop_eq in H as (r0 & H & ->). apply query_content in H as (H1 & H2 & _). eapply same_content_Inv; eauto.
  - apply drop_eq in H as (r0 & H & ->). apply query_content in H as (H1 & H2 & _). eapply same_content_Inv; eauto.
  - apply drop_eq in H as (r0 & H & ->). apply query_content in H as (H1 & H2 & _). eapply same_content_Inv; eauto.
  - apply drop_eq in H as (r0 & H & ->). apply query_content in H as (H1 & H2 & _). eapply same_content_Inv; eauto.
  - apply drop_eq in H as (r0 & H & ->). inversion H; subst; auto.
  - apply drop_eq in H as (r0 & H & ->). apply Line_Validate_content in H as (H1 & H2 & _).
    eapply same_content_Inv; eauto.
Qed.

Lemma run_from_Inv : forall calls l l', Inv l -> Forall (line_call_ok ok) calls ->
  line_run_from l calls = Some l' -> Inv l'.
Proof.
  induction calls as [|c calls IH]; simpl; intros l l' HI HF H; [inversion H; subst; auto|].
  inversion HF; subst. destruct (line_step l c) as [l1 r1] eqn:E.
  destruct r1; try discriminate; (apply (IH l1); [|exact H3|exact H]);
    (eapply step_Inv; [exact HI|exact H2|exact E|discriminate]).
Qed.

Lemma run_Inv : forall calls l, Forall (line_call_ok ok) calls -> line_run calls = Some l -> Inv l.
Proof. intros. eapply run_from_Inv; eauto. apply Inv_empty. Qed.

End P.
