(** Contracts of the calls on cables and structures (C10 partial, C54-C57) and
    the invariant for copied lines. *)
From Coq Require Import ZArith Bool List Lia Sorted Permutation.
From Verif Require Import Num NumFacts ModelBase ModelAlignment ModelLine SpecLine ListFacts ProofAlignment
  SpecTransmission ProofLine ProofLineInv ProofLineFacts ProofLineCoord ProofLineSafe ProofConn ProofLineCopy.
Import ListNotations.
Open Scope num_scope.

Section P.
Context {N : Num} (ok : N -> Prop) (OL : OrdLaws N ok) {P : Type}.
Implicit Types l : Line N P.

Lemma constructible_Inv : forall l, constructible ok l -> Inv ok l.
Proof.
  intros l H. induction H.
  - apply Inv_empty.
  - eapply (step_Inv ok OL); eauto.
  - eapply (assign_Inv ok OL this that); eauto.
Qed.

Lemma reachable_constructible : forall l, reachable ok l -> constructible ok l.
Proof.
  intros l (calls & HF & H). unfold line_run in H.
  assert (K : constructible ok (@Line_empty N P)) by constructor.
  revert K H. generalize (@Line_empty N P). induction calls as [|c calls IH]; intros l0 K H; simpl in H;
    [inversion H; subst; auto|].
  inversion HF; subst. destruct (line_step l0 c) as [l1 r] eqn:E.
  assert (r <> UB) by (intros ->; discriminate).
  apply (IH H3 l1); [econstructor; eauto|]. destruct r; auto; congruence.
Qed.

(** ** Order of the cables *)
Lemma starts_at_index : forall l lc c i j, Inv ok l -> nth_error (lc_connections lc) 0 = Some c ->
  starts_at l lc i j -> IndexLineStructure l (cn_line_structure c) = Z.of_nat i /\ cn_index_attachment c = j.
Proof.
  intros l lc c i j HI Hc (c' & id & Hc' & (E1 & E2) & A). rewrite Hc in Hc'. inversion Hc'; subst c'.
  split; auto. destruct (IndexLineStructure_exact ok l (cn_line_structure c) HI) as [[_ K]|(K & id' & A' & E)].
  - exfalso. apply (K i id); auto.
  - rewrite E1 in E. inversion E; subst id'. assert (Q := Inv_addresses ok l _ _ id HI A A'). lia.
Qed.

Lemma search_split : forall l i j cables k pos, AddLineCable_search l i j cables k = Ok pos ->
  exists pre post, cables = pre ++ post /\ pos = (k + length pre)%nat /\
    (forall lc, In lc pre -> exists c, nth_error (lc_connections lc) 0 = Some c /\
       ~ (i <= IndexLineStructure l (cn_line_structure c) /\ j < cn_index_attachment c)%Z) /\
    (forall lc post', post = lc :: post' -> exists c, nth_error (lc_connections lc) 0 = Some c /\
       (i <= IndexLineStructure l (cn_line_structure c) /\ j < cn_index_attachment c)%Z).
Proof.
  intros l i j cables. induction cables as [|lc cables IH]; intros k pos H; simpl in H.
  - inversion H; subst. exists [], []. split; auto. split; [simpl; lia|].
    split; [intros lc []|intros lc post' E; discriminate].
  - destruct (front (lc_connections lc)) as [c| |] eqn:Ef; simpl in H; try discriminate.
    apply front_nth in Ef.
    match type of H with (if ?b then _ else _) = _ => destruct b eqn:B end.
    + inversion H; subst. exists [], (lc :: cables). split; auto. split; [simpl; lia|].
      split; [intros x []|]. intros x post' E. inversion E; subst. exists c. split; auto.
      apply andb_true_iff in B as [B1 B2]. lia.
    + apply IH in H as (pre & post & -> & -> & K1 & K2). exists (lc :: pre), post.
      split; auto. split; [simpl; lia|]. split; auto.
      intros x [<-|Hx]; auto. exists c. split; auto. intros [Q1 Q2].
      apply andb_false_iff in B as [B|B]; lia.
Qed.

Lemma AddLineCable_search_of : forall l lc l' j, AddLineCable l lc = (l', Ok j) -> j <> (-1)%Z ->
  exists c pos, nth_error (lc_connections lc) 0 = Some c /\
    AddLineCable_search l (IndexLineStructure l (cn_line_structure c)) (cn_index_attachment c)
      (tl_line_cables l) 0 = Ok pos /\ j = Z.of_nat pos /\
    l' = with_cables l (insert_at pos lc (tl_line_cables l)) /\
    AddLineCable_check l (lc_connections lc) = Ok true.
Proof.
  intros l lc l' j H Hj. unfold AddLineCable in H.
  destruct (ValidateConnections _ _) as [[]| |] eqn:EV; try (inversion H; congruence).
  destruct (AddLineCable_check _ _) as [[]| |] eqn:EC; try (inversion H; congruence).
  destruct (front (lc_connections lc)) as [c| |] eqn:Ef; try (inversion H; congruence).
  apply front_nth in Ef. exists c.
  match goal with H : context [AddLineCable_search ?a ?b ?c ?d ?e] |- _ =>
    destruct (AddLineCable_search a b c d e) as [pos| |] eqn:ES end; inversion H; subst.
  exists pos. auto.
Qed.

Lemma nth_insert_at : forall A n (x : A) m k, (n <= length m)%nat ->
  nth_error (insert_at n x m) k =
    if Nat.ltb k n then nth_error m k else if Nat.eqb k n then Some x else nth_error m (k - 1).
Proof.
  intros A n x m k Hn. unfold insert_at.
  assert (L : length (firstn n m) = n) by (rewrite firstn_length; lia).
  destruct (Nat.ltb_spec k n).
  - rewrite nth_error_app1 by lia. apply nth_error_firstn'; auto.
  - rewrite nth_error_app2, L by lia. destruct (Nat.eqb_spec k n) as [->|Hne].
    + rewrite Nat.sub_diag. auto.
    + replace (k - n)%nat with (S (k - n - 1)) by lia. simpl. rewrite nth_error_skipn'. f_equal. lia.
Qed.

(** C10, the part that holds. *)
Lemma AddLineCable_order : forall l lc l' k i j, Inv ok l -> cables_in_order l ->
  starts_at l lc i j -> AddLineCable l lc = (l', Ok k) -> k <> (-1)%Z ->
  (forall lc2 i2 j2, In lc2 (tl_line_cables l) -> starts_at l lc2 i2 j2 -> (i < i2)%nat -> (j < j2)%Z) ->
  cables_in_order l'.
Proof.
  intros l lc l' k i j HI HO HS H Hk HL.
  destruct (AddLineCable_search_of _ _ _ _ H Hk) as (c & pos & Hc & ES & -> & -> & EC).
  destruct (starts_at_index _ _ _ _ _ HI Hc HS) as [Ei Ej]. rewrite Ei, Ej in ES.
  apply search_split in ES as (pre & post & Ecab & -> & K1 & K2). cbn [Nat.add] in *.
  set (n := length pre) in *.
  assert (Ln : (n <= length (tl_line_cables l))%nat) by (rewrite Ecab, app_length; lia).
  assert (LT1 : forall lc1 i1 j1, In lc1 pre -> starts_at l lc1 i1 j1 -> (i1 < i)%nat \/ (i1 = i /\ (j1 < j)%Z)).
  { intros lc1 i1 j1 Hin H1. destruct (K1 lc1 Hin) as (c1 & Hc1 & Q).
    destruct (starts_at_index _ _ _ _ _ HI Hc1 H1) as [E1 E2]. rewrite E1, E2 in Q.
    assert (Hin' : In lc1 (tl_line_cables l)) by (rewrite Ecab; apply in_or_app; auto).
    destruct (lt_eq_lt_dec i1 i) as [[L|E]|L]; auto.
    - right. split; auto. subst i1.
      assert (j1 <> j); [|lia]. intros ->.
      destruct (check_true _ _ EC c (nth_error_In _ _ Hc)) as [_ NI]. apply NI.
      apply in_flat_map. exists lc1. split; auto.
      destruct HS as (x & id & Hx & (X1 & X2) & A). rewrite Hc in Hx. inversion Hx; subst x.
      destruct H1 as (y & id' & Hy & (Y1 & Y2) & A'). rewrite Hc1 in Hy. inversion Hy; subst y.
      destruct A as [s A]. destruct A' as [s' A']. rewrite A in A'. inversion A'; subst id'.
      replace c with c1; [eapply nth_error_In; eauto|]. destruct c, c1; simpl in *; congruence.
    - exfalso. apply Q. split; [lia|]. eapply HL; eauto. }
  assert (Start : forall lc1, In lc1 (tl_line_cables l) -> exists i1 j1, starts_at l lc1 i1 j1).
  { intros lc1 Hin. destruct (Inv_order ok l lc1 HI Hin) as [Len _].
    destruct (nth_error (lc_connections lc1) 0) as [c1|] eqn:E1; [|apply nth_error_None in E1; lia].
    destruct (Inv_refs ok l lc1 c1 HI Hin (nth_error_In _ _ E1)) as (i1 & id & s & h & A & B & _).
    exists i1, (cn_index_attachment c1), c1, id. split; auto. split; [split; auto|]. exists s; auto. }
  assert (LT2 : forall m lc2 i2 j2, (n <= m)%nat -> nth_error (tl_line_cables l) m = Some lc2 ->
            starts_at l lc2 i2 j2 -> (i < i2)%nat \/ (i = i2 /\ (j < j2)%Z)).
  { intros m lc2 i2 j2 Hm Hlc2 H2.
    destruct post as [|lc0 post].
    { rewrite app_nil_r in Ecab. assert (m < length (tl_line_cables l))%nat by (apply nth_error_Some; congruence).
      rewrite Ecab in H0. fold n in H0. lia. }
    destruct (K2 lc0 post eq_refl) as (c0 & Hc0 & Q1 & Q2).
    assert (Hlc0 : nth_error (tl_line_cables l) n = Some lc0).
    { rewrite Ecab. unfold n. rewrite nth_error_app2, Nat.sub_diag by lia. auto. }
    destruct (Start lc0 (nth_error_In _ _ Hlc0)) as (i0 & j0 & H0).
    destruct (starts_at_index _ _ _ _ _ HI Hc0 H0) as [E1 E2]. rewrite E1 in Q1. rewrite E2 in Q2.
    assert (L0 : (i < i0)%nat \/ (i = i0 /\ (j < j0)%Z)) by lia.
    destruct (Nat.eq_dec m n) as [->|Hne].
    - rewrite Hlc0 in Hlc2. inversion Hlc2; subst lc2.
      destruct (starts_at_index _ _ _ _ _ HI Hc0 H2) as [E3 E4]. lia.
    - assert (Q := HO n m lc0 lc2 i0 j0 i2 j2 ltac:(lia) Hlc0 Hlc2 H0 H2). lia. }
  assert (NEW : forall i1 j1, starts_at l lc i1 j1 -> i1 = i /\ j1 = j).
  { intros i1 j1 H1. destruct (starts_at_index _ _ _ _ _ HI Hc H1). lia. }
  intros a b lc1 lc2 i1 j1 i2 j2 Hab Ha Hb S1 S2. simpl in Ha, Hb.
  change (starts_at l lc1 i1 j1) in S1. change (starts_at l lc2 i2 j2) in S2.
  rewrite (nth_insert_at _ n lc) in Ha, Hb by auto.
  destruct (Nat.ltb_spec a n) as [La|La].
  - assert (In1 : In lc1 pre).
    { rewrite Ecab in Ha. rewrite nth_error_app1 in Ha by (fold n; lia). eapply nth_error_In; eauto. }
    destruct (Nat.ltb_spec b n) as [Lb|Lb]; [eapply (HO a b); eauto|].
    destruct (Nat.eqb_spec b n) as [Eb|Nb].
    + inversion Hb; subst lc2. destruct (NEW _ _ S2) as [-> ->]. eauto.
    + eapply (HO a (b - 1)%nat); eauto. lia.
  - destruct (Nat.ltb_spec b n) as [Lb|Lb]; [lia|].
    destruct (Nat.eqb_spec b n) as [Eb|Nb]; [lia|].
    destruct (Nat.eqb_spec a n) as [Ea|Na].
    + inversion Ha; subst lc1. destruct (NEW _ _ S1) as [-> ->]. eapply (LT2 (b - 1)%nat); eauto. lia.
    + eapply (HO (a - 1)%nat (b - 1)%nat); eauto. lia.
Qed.

(** ** AddLineCable *)
Lemma AddLineCable_contract : forall l lc l' k, Inv ok l -> AddLineCable l lc = (l', Ok k) ->
  (k = (-1)%Z /\ l' = l /\
   ~ ((2 <= length (lc_connections lc))%nat /\ Forall (connectable l) (lc_connections lc))) \/
  (is_insertion (tl_line_cables l) k lc (tl_line_cables l') /\
   tl_alignment l' = tl_alignment l /\ tl_line_structures l' = tl_line_structures l /\
   (2 <= length (lc_connections lc))%nat /\ Forall (connectable l) (lc_connections lc)).
Proof.
  intros l lc l' k HI H. assert (HI' := HI). destruct HI' as (_ & (_ & _ & ND & _) & _).
  destruct (Z.eq_dec k (-1)) as [->|Hk].
  - left. split; auto. assert (H' := H).
    apply AddLineCable_cases in H' as [[-> _]|(pos & E & _)]; [|exfalso; inversion E; lia]. split; auto.
    intros [L F]. rewrite Forall_forall in F.
    assert (EV : ValidateConnections (tl_line_structures l) (lc_connections lc) = Ok true).
    { unfold ValidateConnections. destruct (Nat.ltb_spec (length (lc_connections lc)) 2); [lia|].
      rewrite validate_hw_ok; auto. apply Forall_forall. intros c Hc.
      destruct (F c Hc) as (i & id & s & h & A & B & C & D & _). exists id, s, h. split; auto. split.
      - apply In_lookup; auto. eapply nth_error_In; eauto.
      - unfold vec_at. destruct (Z.ltb_spec (cn_index_attachment c) 0); [lia|]. rewrite D. auto. }
    assert (EC : AddLineCable_check l (lc_connections lc) = Ok true).
    { apply check_intro; auto. intros c Hc. destruct (F c Hc) as (i & id & s & h & A & B & C & D & NE). split.
      - exists id. split; auto. apply nth_error_In in A. apply (in_map fst) in A. exact A.
      - intros K. apply in_flat_map in K as (x & Hx & Hcx). eapply NE; eauto. split; auto. }
    unfold AddLineCable in H. rewrite EV, EC in H.
    destruct (lc_connections lc) as [|c0 cs] eqn:El; [simpl in L; lia|]. cbn [front] in H.
    destruct HI as (_ & _ & J & _).
    destruct (search_ok l (IndexLineStructure l (cn_line_structure c0)) (cn_index_attachment c0) (tl_line_cables l) 0)
      as (p & Hp & _).
    { eapply Forall_impl; [|exact J]. intros x (_ & Q & _); auto. }
    rewrite Hp in H. inversion H. lia.
  - right. apply AddLineCable_cases in H as [[_ [E|[E|E]]]|(pos & E & -> & Hpos & EV & EC)]; try congruence.
    inversion E; subst k. simpl. split; [apply insert_at_spec; auto|]. split; auto. split; auto.
    apply validate_true in EV as [L EV]. split; auto. apply validate_loop_hw in EV. rewrite Forall_forall in EV.
    apply Forall_forall. intros c Hc. destruct (EV c Hc) as (s & h & D1 & D2).
    destruct (check_true _ _ EC c Hc) as [(id & E1 & E2) NI].
    rewrite E1 in D1. simpl in D1. destruct (lookup _ id) eqn:EL; inversion D1; subst.
    apply lookup_In in EL. apply In_nth_error in EL as [i Hi]. exists i, id, s, h.
    apply vec_at_ok_range in D2 as [D2 D3]. repeat split; auto; try lia.
    intros x c' Hx Hc' [Q1 Q2]. apply NI. apply in_flat_map. exists x. split; auto.
    replace c with c'; auto. destruct c, c'; simpl in *; congruence.
Qed.

(** ** AddLineStructure *)
Lemma AddLineStructure_contract : forall l s l' k, Inv ok l -> ok (ls_station s) ->
  AddLineStructure l s = (l', Ok k) ->
  tl_alignment l' = tl_alignment l /\ tl_line_cables l' = tl_line_cables l /\
  ((k = (-1)%Z /\ tl_line_structures l' = tl_line_structures l /\
    (~ on_alignment (tl_alignment l) (ls_station s) \/
     exists s0, In s0 (structures_of l) /\ (ls_station s =? ls_station s0) = true)) \/
   (exists id, is_insertion (tl_line_structures l) k (id, s) (tl_line_structures l') /\
     (forall i, ~ address_at l i id) /\
     on_alignment (tl_alignment l) (ls_station s) /\
     forall s0, In s0 (structures_of l) -> (ls_station s =? ls_station s0) = false)).
Proof.
  intros l s l' k HI Hs H. assert (HI' := HI). destruct HI' as (I1 & (HO & HT & ND & LT & _) & _).
  assert (NONE := find_slot_None ok OL (ls_station s) (stations (tl_line_structures l)) 0 Hs HO HT).
  unfold AddLineStructure in H.
  change (tl_alignment (stale_structures l)) with (tl_alignment l) in H.
  change (tl_line_structures (stale_structures l)) with (tl_line_structures l) in H.
  change (tl_next (stale_structures l)) with (tl_next l) in H.
  destruct (IsValidStation (tl_alignment l) (ls_station s)) as [v| |] eqn:V; [|discriminate|discriminate].
  assert (ON : v = true <-> on_alignment (tl_alignment l) (ls_station s)).
  { unfold IsValidStation in V. destruct (front (tl_alignment l)) as [pf| |] eqn:Ef; try discriminate.
    cbn [obind] in V. destruct (back (tl_alignment l)) as [pb| |] eqn:Eb; try discriminate. cbn [obind] in V.
    inversion V. apply front_nth in Ef. apply back_nth in Eb. rewrite andb_true_iff. split.
    - intros [Q1 Q2]. exists pf, pb. auto.
    - intros (a & b & A & B & Q1 & Q2). rewrite Ef in A. rewrite Eb in B. inversion A; inversion B; subst; auto. }
  destruct v.
  - rewrite AddLineStructure_search_slot in H.
    destruct (find_slot _ _ 0) as [pos|] eqn:E; inversion H; subst; simpl; split; auto; split; auto.
    + right. exists (tl_next l). split.
      { apply insert_at_spec. apply find_slot_le in E. unfold stations in E. rewrite map_length in E. lia. }
      split; [|split; [apply ON; auto|]].
      * intros i (s0 & A). apply nth_error_In in A. apply (in_map fst) in A. rewrite Forall_forall in LT.
        specialize (LT _ A). simpl in LT. lia.
      * intros s0 Hin. destruct (ls_station s =? ls_station s0) eqn:Q; auto.
        assert (Some pos = None); [|discriminate]. apply NONE.
        exists (ls_station s0). split; auto. unfold structures_of in Hin. apply in_map_iff in Hin as (n & <- & Hn).
        apply (in_map (fun n => ls_station (snd n))). auto.
    + left. split; auto. split; auto. right. destruct (proj1 NONE eq_refl) as (x & Hx & Q).
      apply in_map_iff in Hx as (n & <- & Hn). exists (snd n). split; auto. apply in_map; auto.
  - inversion H; subst; simpl. split; auto. split; auto. left. split; auto. split; auto. left.
    intros K. apply ON in K. discriminate.
Qed.

(** ** DeleteLineStructure *)
Lemma DeleteLineStructure_exact : forall l i l' r, Inv ok l -> DeleteLineStructure l i = (l', r) ->
  (r = Ok false /\ ~ (0 <= i < Z.of_nat (length (tl_line_structures l)))%Z /\ content_unchanged l l') \/
  (r = Ok true /\ tl_alignment l' = tl_alignment l /\
   (exists n, is_removal (tl_line_structures l) i n (tl_line_structures l')) /\
   tl_line_cables l' = restrict_cables (in_line l') (tl_line_cables l)).
Proof.
  intros l i l' r HI H. assert (HI' := HI). destruct HI' as (_ & (HO & HT & ND & LT & _) & I3).
  apply (DeleteLineStructure_cases ok) in H as [(-> & -> & Q)|(-> & id & s & Hn & Hi & ->)]; auto.
  - left. repeat split; auto.
  - right. split; auto. simpl. split; auto. split.
    + exists (id, s). assert (L : (Z.to_nat i < length (tl_line_structures l))%nat) by (apply nth_error_Some; congruence).
      replace i with (Z.of_nat (Z.to_nat i)) at 1 by lia.
      assert (R := remove_at_spec (Z.to_nat i) (tl_line_structures l) (id, s) L).
      rewrite (nth_error_nth _ _ _ Hn) in R. exact R.
    + rewrite restrict_strip. f_equal. apply strip_ext. intros lc c Hlc Hc.
      destruct (conn_ids _ _ _ _ (cables_ok_refs _ _ I3) Hlc Hc) as (id' & E1 & E2).
      unfold in_line. simpl. rewrite E1. apply bool_iff. rewrite existsb_eqb_In, negb_true_iff.
      destruct (remove_filter _ _ _ _ ND Hn) as [-> _].
      split; intros K.
      * apply lookup_ids in E2 as [s' E2]. apply lookup_In in E2.
        apply in_map_iff. exists (id', s'). split; auto. apply filter_In. split; auto. simpl.
        apply negb_true_iff. apply Nat.eqb_neq. intros ->. unfold points_to in K. rewrite E1, Nat.eqb_refl in K. discriminate.
      * apply in_map_iff in K as (m & Em & Hm). apply filter_In in Hm as [_ Hm]. unfold points_to. rewrite E1.
        rewrite Em in Hm. apply negb_true_iff in Hm. auto.
Qed.

(** ** ModifyLineStructure *)
Lemma ModifyLineStructure_exact : forall l i s l', Inv ok l -> ModifyLineStructure l i s = (l', Ok true) ->
  tl_alignment l' = tl_alignment l /\
  exists id s0 st pre post, ls_structure s = Some st /\
    i = Z.of_nat (length pre) /\
    tl_line_structures l = pre ++ (id, s0) :: post /\
    tl_line_structures l' = pre ++ (id, s) :: post /\
    tl_line_cables l' = restrict_cables (fun c => match cn_line_structure c with
        | SOwned id' => negb (Nat.eqb id' id) || (cn_index_attachment c <? Z.of_nat (length (st_attachments st)))%Z
        | _ => true end) (tl_line_cables l).
Proof.
  intros l i s l' HI H.
  apply ModifyLineStructure_cases in H as [[_ H]|H]; [discriminate| |discriminate].
  destruct H as (id & s0 & st & Hi & Hn & Est & _ & _ & _ & _ & H). cbn zeta in H.
  destruct H as (c'' & r' & ED & Er & ->). destruct r' as [[]| |]; try discriminate.
  simpl. split; auto. apply nth_error_split in Hn as (pre & post & E & L).
  exists id, s0, st, pre, post. split; auto. split; [lia|]. split; auto.
  assert (E' : list_set (Z.to_nat i) (id, s) (tl_line_structures l) = pre ++ (id, s) :: post).
  { rewrite E, <- L. unfold list_set. rewrite firstn_app, firstn_all, Nat.sub_diag, firstn_O, app_nil_r.
    rewrite skipn_app, skipn_all2 by lia. replace (S (length pre) - length pre)%nat with 1%nat by lia. auto. }
  split; auto.
  apply delete_invalid_ok in ED as [-> _]. rewrite restrict_strip. f_equal. apply strip_ext.
  intros lc c Hlc Hc. unfold points_to. destruct (cn_line_structure c) as [|id'|]; auto.
  destruct (Nat.eqb id' id); simpl; auto. rewrite Z.leb_antisym. apply negb_involutive.
Qed.
End P.
