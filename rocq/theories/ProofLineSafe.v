(** Exact effects of the edits and absence of undefined behaviour. *)
From Coq Require Import ZArith Bool List Lia Sorted Permutation.
From Verif Require Import Num ModelBase ModelAlignment ModelLine SpecLine ListFacts ProofAlignment
  SpecTransmission ProofLine ProofLineInv ProofLineFacts ProofLineCoord.
Import ListNotations.
Open Scope num_scope.

Section P.
Context {N : Num} (ok : N -> Prop) (OL : OrdLaws N ok) {P : Type}.
Implicit Types l : Line N P.
Implicit Types env structs : Env N.
Implicit Types cs : list (Connection N).
Implicit Types cables : list (LineCable N P).
Local Notation Inv := (Inv ok).

Lemma restrict_strip : forall keep cables,
  restrict_cables keep cables = filter long_enough (strip keep cables).
Proof. reflexivity. Qed.

Lemma front_nth : forall A (m : list A) a, front m = Ok a <-> nth_error m 0 = Some a.
Proof. intros A [|x m] a; simpl; split; intros H; inversion H; auto. Qed.

Lemma back_nth : forall A (m : list A) a, back m = Ok a <-> nth_error m (length m - 1) = Some a.
Proof.
  intros A [|x m] a; [simpl; split; discriminate|]. simpl back.
  replace (length (x :: m) - 1)%nat with (length m) by (simpl; lia).
  rewrite last_nth_error. split; intros H; inversion H; auto.
Qed.

Lemma front_back_ok : forall A (m : list A), m <> [] -> exists a b, front m = Ok a /\ back m = Ok b.
Proof. intros A [|x m] H; [congruence|]. simpl. eauto. Qed.

Lemma strip_ext : forall p q cables,
  (forall lc c, In lc cables -> In c (lc_connections lc) -> p c = q c) -> strip p cables = strip q cables.
Proof.
  intros p q cables H. unfold strip. apply map_ext_in. intros lc Hlc. f_equal.
  apply filter_ext_in. intros c Hc. eapply H; eauto.
Qed.

Lemma existsb_eqb_In : forall n m, existsb (Nat.eqb n) m = true <-> In n m.
Proof.
  intros n m. rewrite existsb_exists. split.
  - intros (x & H & E). apply Nat.eqb_eq in E. subst; auto.
  - intros H. exists n. split; auto. apply Nat.eqb_refl.
Qed.

Lemma bool_iff : forall a b : bool, (a = true <-> b = true) -> a = b.
Proof. intros [] [] [H1 H2]; auto. symmetry. auto. Qed.

Lemma conn_ids : forall structs cables lc c, cables_refs structs cables -> In lc cables ->
  In c (lc_connections lc) -> exists id, cn_line_structure c = SOwned id /\ In id (ids structs).
Proof.
  intros structs cables lc c [H _] Hlc Hc. rewrite Forall_forall in H. destruct (H lc Hlc) as [K _].
  eapply conns_in_owned; eauto.
Qed.

Lemma NoDup_ids_inj : forall structs n m, NoDup (ids structs) -> In n structs -> In m structs ->
  fst n = fst m -> n = m.
Proof.
  intros structs [i s] [j t] ND H1 H2 E. simpl in E. subst j.
  apply In_lookup in H1; auto. apply In_lookup in H2; auto. congruence.
Qed.

(** ** Clean-up after an alignment edit *)
Lemma cleanup_exact : forall A l (v : A) first last, Inv l ->
  nth_error (tl_alignment l) 0 = Some first ->
  nth_error (tl_alignment l) (length (tl_alignment l) - 1) = Some last ->
  exists l', cleanup l v = (l', Ok v) /\ tl_alignment l' = tl_alignment l /\
    tl_line_structures l' = filter (fun n => between first last (snd n)) (tl_line_structures l) /\
    tl_line_cables l' = restrict_cables (in_line l') (tl_line_cables l).
Proof.
  intros A l v first last (I1 & I2 & I3) Hf Hl.
  apply front_nth in Hf. apply back_nth in Hl.
  unfold cleanup, DeleteInvalidLineStructures. rewrite Hf, Hl.
  rewrite delete_structs_loop.
  unfold line_DeleteInvalidLineCables. simpl.
  set (f := fun n : nat * LineStructure N => outside (ap_station first) (ap_station last) (snd n)).
  assert (R := refs_drop ok _ _ _ f I2 (cables_ok_refs _ _ I3)).
  change (fun n : nat * LineStructure N => negb (outside (ap_station first) (ap_station last) (snd n)))
    with (fun x => negb (f x)).
  fold f.
  rewrite delete_invalid_hw_ok by (apply refs_forall_hw; auto).
  eexists. split; [reflexivity|]. simpl. split; auto.
  assert (Ofst : ok (ap_station first) /\ ok (ap_station last)).
  { destruct I1 as [I1 _]. rewrite Forall_forall in I1. split; apply I1, in_map.
    - apply front_nth in Hf. eapply nth_error_In; eauto.
    - apply back_nth in Hl. eapply nth_error_In; eauto. }
  assert (Ef : filter (fun x => negb (f x)) (tl_line_structures l) =
     filter (fun n => between first last (snd n)) (tl_line_structures l)).
  { apply filter_ext_in. intros n Hn. unfold f, outside, between.
    assert (On : ok (ls_station (snd n))).
    { destruct I2 as [I2 _]. rewrite Forall_forall in I2. apply I2.
      apply (in_map (fun n => ls_station (snd n))). auto. }
    rewrite !(ol_le _ _ OL) by tauto. rewrite negb_orb. auto. }
  split; auto.
  rewrite restrict_strip. f_equal. apply strip_ext. intros lc c Hlc Hc.
  destruct (conn_ids _ _ _ _ (cables_ok_refs _ _ I3) Hlc Hc) as (id & E1 & E2).
  unfold in_line. simpl. rewrite E1. apply bool_iff. rewrite existsb_eqb_In, negb_true_iff.
  apply lookup_ids in E2 as [s E2]. apply lookup_In in E2.
  split; intros K.
  - apply in_map_iff. exists (id, s). split; auto. apply filter_In. split; auto.
    apply negb_true_iff. destruct (f (id, s)) eqn:Ef2; auto. rewrite <- K. symmetry.
    apply existsb_exists. exists (id, s). split; [apply filter_In; auto|]. apply points_to_iff; auto.
  - destruct (existsb _ _) eqn:Ex; auto. apply existsb_exists in Ex as (n & Hn & Ep).
    apply filter_In in Hn as [Hn Hfn]. apply points_to_iff in Ep. rewrite E1 in Ep. inversion Ep as [Ei].
    apply in_map_iff in K as (m & Em & Hm). apply filter_In in Hm as [Hm Hfm].
    assert (n = m).
    { apply (NoDup_ids_inj (tl_line_structures l)); auto; [apply I2|congruence]. }
    subst m. rewrite Hfn in Hfm. discriminate.
Qed.

Lemma nonempty_ends : forall A (m : list A), m <> [] -> exists a b,
  nth_error m 0 = Some a /\ nth_error m (length m - 1) = Some b.
Proof.
  intros A m H. destruct (front_back_ok _ m H) as (a & b & Ha & Hb).
  exists a, b. rewrite <- front_nth, <- back_nth. auto.
Qed.

(** C18 *)
Lemma DeleteAlignmentPoint_exact : forall l i l' b, Inv l ->
  DeleteAlignmentPoint l i = (l', Ok b) ->
  (b = false /\ ~ (0 <= i < Z.of_nat (length (tl_alignment l)))%Z) \/
  (b = true /\ (exists p, is_removal (tl_alignment l) i p (tl_alignment l')) /\
   ((i <> 0%Z /\ i <> (Z.of_nat (length (tl_alignment l)) - 1)%Z) ->
      tl_line_structures l' = tl_line_structures l /\ tl_line_cables l' = tl_line_cables l) /\
   ((i = 0%Z \/ i = (Z.of_nat (length (tl_alignment l)) - 1)%Z) ->
      exists first last, nth_error (tl_alignment l') 0 = Some first /\
        nth_error (tl_alignment l') (length (tl_alignment l') - 1) = Some last /\
        tl_line_structures l' = filter (fun n => between first last (snd n)) (tl_line_structures l) /\
        tl_line_cables l' = restrict_cables (in_line l') (tl_line_cables l))).
Proof.
  intros l i l' b HI H. unfold DeleteAlignmentPoint in H. simpl in H. unfold DeletePoint in H.
  destruct (valid_index (tl_alignment l) i) eqn:E; cbn [andb] in H.
  - right. assert (V := E). apply valid_index_true in V.
    assert (R : exists p, is_removal (tl_alignment l) i p (remove_at (Z.to_nat i) (tl_alignment l))).
    { destruct (nth_error_exists _ (tl_alignment l) (Z.to_nat i)) as [p Hp]; [lia|].
      exists p. unfold is_removal. exists (firstn (Z.to_nat i) (tl_alignment l)), (skipn (S (Z.to_nat i)) (tl_alignment l)).
      split; auto. split.
      - assert (S := split_nth (Z.to_nat i) (tl_alignment l) p ltac:(lia)).
        rewrite (nth_error_nth _ _ _ Hp) in S. exact S.
      - rewrite firstn_length. lia. }
    unfold is_boundary_point in H.
    destruct ((i =? 0)%Z || (i =? Z.of_nat (length (tl_alignment l)) - 1)%Z) eqn:EB.
    + set (l1 := with_alignment (stale_all l) (remove_at (Z.to_nat i) (tl_alignment l))) in *.
      assert (HI1 : Inv l1).
      { apply with_alignment_Inv; auto. assert (D := DeletePoint_sorted ok (tl_alignment l) i (proj1 HI)).
        unfold DeletePoint in D. rewrite E in D. exact D. }
      assert (NE : tl_alignment l1 <> []).
      { intros K. unfold cleanup, DeleteInvalidLineStructures in H. rewrite K in H. simpl in H. inversion H. }
      destruct (nonempty_ends _ _ NE) as (pf & pl & Hf & Hl).
      destruct (cleanup_exact _ l1 true pf pl HI1 Hf Hl) as (l2 & Ec & C1 & C2 & C3).
      rewrite Ec in H. inversion H; subst l2 b. rewrite C1. split; auto. split; [exact R|]. split.
      * intros [K1 K2]. apply orb_true_iff in EB as [EB|EB]; apply Z.eqb_eq in EB; contradiction.
      * intros _. exists pf, pl. auto.
    + inversion H; subst l' b. simpl. split; auto. split; auto. split; auto.
      intros K. apply orb_false_iff in EB as [B1 B2]. apply Z.eqb_neq in B1. apply Z.eqb_neq in B2. tauto.
  - left. inversion H; subst. split; auto. intros K. apply valid_index_true in K. congruence.
Qed.

Lemma ModifyAlignmentPoint_exact : forall l i p l' j, Inv l -> ok (ap_station p) ->
  ModifyAlignmentPoint l i p = (l', Ok j) -> j <> (-1)%Z ->
   (exists old mid, is_removal (tl_alignment l) i old mid /\ is_insertion mid j p (tl_alignment l')) /\
   ((i <> 0%Z /\ i <> (Z.of_nat (length (tl_alignment l)) - 1)%Z) ->
      tl_line_structures l' = tl_line_structures l /\ tl_line_cables l' = tl_line_cables l) /\
   ((i = 0%Z \/ i = (Z.of_nat (length (tl_alignment l)) - 1)%Z) ->
      exists first last, nth_error (tl_alignment l') 0 = Some first /\
        nth_error (tl_alignment l') (length (tl_alignment l') - 1) = Some last /\
        tl_line_structures l' = filter (fun n => between first last (snd n)) (tl_line_structures l) /\
        tl_line_cables l' = restrict_cables (in_line l') (tl_line_cables l)).
Proof.
  intros l i p l' j HI Hp H Hj. unfold ModifyAlignmentPoint in H. simpl in H.
  assert (S := ModifyPoint_success (tl_alignment l) i p).
  assert (D := ModifyPoint_sorted ok OL (tl_alignment l) i p (proj1 HI) Hp).
  destruct (ModifyPoint (tl_alignment l) i p) as [a d]. cbn [fst snd] in *.
  unfold is_boundary_point in H.
  assert (J : d = j).
  { destruct (negb (d =? -1)%Z && _); [apply cleanup_Ok_val in H|inversion H]; auto. }
  subst d. specialize (S Hj). destruct (Z.eqb_spec j (-1)); [contradiction|]. cbn [negb andb] in H.
  destruct ((i =? 0)%Z || (i =? Z.of_nat (length (tl_alignment l)) - 1)%Z) eqn:EB.
  + set (l1 := with_alignment (stale_all l) a) in *.
    assert (HI1 : Inv l1) by (apply with_alignment_Inv; auto).
    assert (NE : tl_alignment l1 <> []).
    { intros K. unfold cleanup, DeleteInvalidLineStructures in H. rewrite K in H. simpl in H. inversion H. }
    destruct (nonempty_ends _ _ NE) as (pf & pl & Hf & Hl).
    destruct (cleanup_exact _ l1 j pf pl HI1 Hf Hl) as (l2 & Ec & C1 & C2 & C3).
    rewrite Ec in H. inversion H; subst l2. rewrite C1. split; [exact S|]. split.
    * intros [K1 K2]. apply orb_true_iff in EB as [EB|EB]; apply Z.eqb_eq in EB; contradiction.
    * intros _. exists pf, pl. auto.
  + inversion H; subst l'. simpl. split; auto. split; auto.
    intros K. apply orb_false_iff in EB as [B1 B2]. apply Z.eqb_neq in B1. apply Z.eqb_neq in B2. tauto.
Qed.

(** ** Structures on the alignment (C06) *)
Definition covered (a : list (AlignmentPoint N)) (st : N) : Prop :=
  exists p q, In p a /\ In q a /\ (ap_station p <=? st) = true /\ (st <=? ap_station q) = true.

Lemma pts_ok : forall a p, sorted_pts ok a -> In p a -> ok (ap_station p).
Proof. intros a p [H _] Hp. rewrite Forall_forall in H. apply H, in_map; auto. Qed.

Lemma le_trans' : forall x y z, ok x -> ok y -> ok z -> (x <=? y) = true -> (y <=? z) = true -> (x <=? z) = true.
Proof.
  intros x y z Hx Hy Hz H1 H2. rewrite (ol_le _ _ OL) in * by auto.
  apply negb_true_iff in H1. apply negb_true_iff in H2. apply negb_true_iff.
  destruct (z <? x) eqn:E; auto. destruct (ol_cotrans _ _ OL z y x); auto; congruence.
Qed.

Lemma lt_le : forall x y, ok x -> ok y -> lt x y -> (x <=? y) = true.
Proof. intros x y Hx Hy H. rewrite (ol_le _ _ OL) by auto. apply negb_true_iff. eapply lt_asym; eauto. Qed.

Lemma le_refl' : forall x, ok x -> (x <=? x) = true.
Proof. intros x Hx. rewrite (ol_le _ _ OL) by auto. rewrite (ol_irrefl _ _ OL); auto. Qed.

Lemma first_le : forall a first p, sorted_pts ok a -> nth_error a 0 = Some first -> In p a ->
  (ap_station first <=? ap_station p) = true.
Proof.
  intros a first p HS Hf Hp. assert (HS' := HS). destruct HS' as [_ S]. destruct a as [|x a]; [discriminate|].
  simpl in Hf. inversion Hf; subst x. destruct Hp as [->|Hp].
  - apply le_refl'. eapply pts_ok; eauto. simpl; auto.
  - simpl in S. apply SS_cons in S as [_ S]. apply lt_le; [eapply pts_ok; eauto; simpl; auto..|].
    apply S, in_map; auto.
Qed.

Lemma le_last : forall a last p, sorted_pts ok a -> nth_error a (length a - 1) = Some last -> In p a ->
  (ap_station p <=? ap_station last) = true.
Proof.
  intros a last p HS Hl Hp.
  assert (Ol : ok (ap_station last)) by (eapply pts_ok; eauto; eapply nth_error_In; eauto).
  assert (Op : ok (ap_station p)) by (eapply pts_ok; eauto).
  apply In_nth_error in Hp as [k Hk].
  assert (Lk : (k < length a)%nat) by (apply nth_error_Some; congruence).
  destruct (Nat.eq_dec k (length a - 1)) as [->|Hne].
  - assert (p = last) by congruence. subst. apply le_refl'; auto.
  - apply lt_le; auto. destruct HS as [_ S]. apply increasing_SS in S.
    apply (S k (length a - 1)%nat); [lia| |].
    + rewrite nth_error_map, Hk. auto.
    + rewrite nth_error_map, Hl. auto.
Qed.

Lemma covered_iff : forall a st, sorted_pts ok a -> ok st -> covered a st <-> on_alignment a st.
Proof.
  intros a st HS Hst. split.
  - intros (p & q & Hp & Hq & H1 & H2).
    assert (NE : a <> []) by (intros ->; contradiction).
    destruct (nonempty_ends _ _ NE) as (pf & pl & Hf & Hl). exists pf, pl. repeat split; auto.
    + eapply (le_trans' _ (ap_station p)); eauto using pts_ok, nth_error_In, first_le.
    + eapply (le_trans' _ (ap_station q)); eauto using pts_ok, nth_error_In, le_last.
  - intros (pf & pl & Hf & Hl & H1 & H2). exists pf, pl. repeat split; auto; eapply nth_error_In; eauto.
Qed.

(** A statement [Q alignment station] kept by the edits: it follows from lying on
    the alignment and survives as long as both end points do. *)
Definition range_like (Q : list (AlignmentPoint N) -> N -> Prop) : Prop :=
  (forall a st, sorted_pts ok a -> ok st -> on_alignment a st -> Q a st) /\
  (forall a a' st, sorted_pts ok a -> sorted_pts ok a' -> ok st ->
     (forall p, (nth_error a 0 = Some p \/ nth_error a (length a - 1) = Some p) -> In p a') ->
     Q a st -> Q a' st).

Definition all_on (Q : list (AlignmentPoint N) -> N -> Prop) l : Prop :=
  Forall (fun n : nat * LineStructure N => Q (tl_alignment l) (ls_station (snd n))) (tl_line_structures l).

Lemma on_ends : forall a a' st, sorted_pts ok a -> sorted_pts ok a' -> ok st ->
  (forall p, (nth_error a 0 = Some p \/ nth_error a (length a - 1) = Some p) -> In p a') ->
  on_alignment a st -> on_alignment a' st.
Proof.
  intros a a' st H1 H2 Hst HI (pf & pl & Hf & Hl & K1 & K2). apply covered_iff; auto. exists pf, pl. auto.
Qed.

Lemma on_range_like : range_like on_alignment.
Proof. split; auto. exact on_ends. Qed.

Lemma stations_ok : forall l (n : nat * LineStructure N), Inv l -> In n (tl_line_structures l) -> ok (ls_station (snd n)).
Proof.
  intros l n (_ & (I2 & _) & _) Hn. rewrite Forall_forall in I2. apply I2.
  apply (in_map (fun n => ls_station (snd n))). auto.
Qed.

Lemma between_on : forall a first last (s : LineStructure N), nth_error a 0 = Some first -> nth_error a (length a - 1) = Some last ->
  between first last s = true -> on_alignment a (ls_station s).
Proof.
  intros a first last s Hf Hl H. unfold between in H. apply andb_true_iff in H as [H1 H2].
  exists first, last. auto.
Qed.

Lemma removal_ends : forall A (a a' : list A) i x p, is_removal a i x a' ->
  i <> 0%Z -> i <> (Z.of_nat (length a) - 1)%Z ->
  (nth_error a 0 = Some p \/ nth_error a (length a - 1) = Some p) -> In p a'.
Proof.
  intros A a a' i x p (l1 & l2 & -> & -> & ->) H0 H1 H.
  destruct l1 as [|y l1]; [simpl in H0; lia|].
  destruct H as [H|H].
  - simpl in H. inversion H; subst. simpl. auto.
  - rewrite !app_length in H, H1. cbn [length] in H, H1.
    apply in_or_app. right.
    rewrite nth_error_app2 in H by (cbn [length]; lia).
    cbn [length] in H.
    replace (S (length l1) + S (length l2) - 1 - S (length l1))%nat with (length l2) in H by lia.
    destruct (length l2) eqn:E; [lia|]. simpl in H. eapply nth_error_In; eauto.
Qed.

Lemma insertion_incl : forall A (a a' : list A) i x p, is_insertion a i x a' -> In p a -> In p a'.
Proof.
  intros A a a' i x p (l1 & l2 & -> & -> & ->) H. apply in_app_iff in H. apply in_app_iff. simpl. tauto.
Qed.

Lemma all_on_sub : forall Q l l', tl_alignment l' = tl_alignment l ->
  (forall n, In n (tl_line_structures l') -> In n (tl_line_structures l)) -> all_on Q l -> all_on Q l'.
Proof.
  unfold all_on. intros Q l l' E H. rewrite E, !Forall_forall. auto.
Qed.

Lemma remove_at_sub_In : forall A n (x : A) m, In x (remove_at n m) -> In x m.
Proof. intros. eapply In_remove_at; eauto. Qed.

Lemma step_all_on : forall Q l c l' r, range_like Q -> Inv l -> call_args_ok ok c ->
  match c with
  | CModifyLineStructure i s =>
      forall l', ModifyLineStructure l i s = (l', Ok true) -> Q (tl_alignment l) (ls_station s)
  | _ => True
  end ->
  line_step l c = (l', r) -> r <> UB -> all_on Q l -> all_on Q l'.
Proof.
  intros Q l c l' r [HQ1 HQ2] HI Hc Hm H Hr HA.
  assert (HI' : Inv l') by (eapply step_Inv; eauto).
  assert (CS : coord_same l l' -> all_on Q l').
  { intros (A & _ & B). eapply all_on_sub; eauto. rewrite B; auto. }
  assert (QG : forall A (f : A) k r0, query l f k = (l', r0) -> all_on Q l').
  { intros A f k r0 K. apply query_content in K as ((K1 & _ & K4) & _ & K3). apply CS. split; [|split]; auto. }
  assert (PG : pframe l l' /\ tl_line_structures l' = tl_line_structures l -> all_on Q l').
  { intros [(K1 & K2 & _) K]. apply CS. split; [|split]; auto. }
  assert (SG : l' = l -> all_on Q l') by (intros ->; auto).
  destruct c; simpl in H, Hc; try (apply drop_eq in H as (r0 & H & ->); apply omap_UB in Hr);
    try (eapply QG; exact H).
  - assert (E : tl_line_structures l' = tl_line_structures l /\
       tl_alignment l' = fst (AddPoint (tl_alignment l) p)).
    { unfold AddAlignmentPoint in H. simpl in H. destruct (AddPoint (tl_alignment l) p). inversion H; subst. auto. }
    destruct E as [E1 E2]. unfold all_on in *. rewrite E1. rewrite Forall_forall in *. intros n Hn.
    eapply (HQ2 (tl_alignment l)); [apply HI|apply HI'|apply (stations_ok l n HI Hn)| |apply HA; exact Hn].
    intros q Hq'. assert (Hq : In q (tl_alignment l)) by (destruct Hq' as [K|K]; eapply nth_error_In; eauto).
    rewrite E2. assert (S := AddPoint_success (tl_alignment l) p).
    assert (F := AddPoint_fail_same (tl_alignment l) p).
    destruct (Z.eq_dec (snd (AddPoint (tl_alignment l) p)) (-1)).
    + rewrite F; auto.
    + eapply insertion_incl; eauto.
  - destruct (build_cable _ _ _); [|apply SG; congruence|apply SG; congruence].
    apply drop_eq in H as (r0 & H & _). apply AddLineCable_pframe in H. apply PG, H.
  - apply AddLineStructure_cases in H as [[-> _]|(pos & _ & V & _ & ->)]; [exact HA|].
    unfold all_on in *. simpl. rewrite Forall_forall in *. intros n Hn.
    apply In_insert_at in Hn as [->|Hn]; auto. simpl.
    unfold IsValidStation in V. destruct (front (tl_alignment l)) as [pf| |] eqn:Ef; try discriminate.
    destruct (back (tl_alignment l)) as [pb| |] eqn:Eb; try discriminate. simpl in V.
    apply front_nth in Ef. apply back_nth in Eb. inversion V as [V']. apply andb_true_iff in V' as [V1 V2].
    apply HQ1; [apply HI|apply Hc|]. exists pf, pb. auto.
  - destruct r0 as [b| |]; try congruence.
    2: { eapply (DeleteAlignmentPoint_Inv ok) in H as [[b Hb] _]; eauto. discriminate. }
    assert (F := DeleteAlignmentPoint_fail l index l').
    assert (H0 := H).
    apply DeleteAlignmentPoint_exact in H as [[-> K]|(-> & (q & R) & K1 & K2)]; auto.
    + destruct (F H0) as (A & B & _). eapply (all_on_sub Q l); eauto. rewrite B; auto.
    + destruct (Z.eq_dec index 0) as [Z0|Z0]; [|destruct (Z.eq_dec index (Z.of_nat (length (tl_alignment l)) - 1)) as [Z1|Z1]].
      1,2: destruct K2 as (pf & pl & Hf & Hl & K2 & _); auto; unfold all_on; rewrite K2; apply Forall_forall;
        intros n Hn; apply filter_In in Hn as [Hn Hb]; apply HQ1; [apply HI'|apply (stations_ok l n HI Hn)|eapply between_on; eauto].
      destruct K1 as [K1 _]; auto. unfold all_on in *. rewrite K1. rewrite Forall_forall in *. intros n Hn.
      eapply (HQ2 (tl_alignment l)); [apply HI|apply HI'|apply (stations_ok l n HI Hn)| |apply HA; exact Hn].
      intros p Hp. apply (removal_ends _ _ _ _ _ _ R); auto.
  - apply DeleteLineCable_pframe in H. apply PG, H.
  - apply DeleteLineStructure_cases with (1 := HI) in H as [(-> & _)|(_ & id & s & _ & _ & ->)]; [exact HA|].
    eapply (all_on_sub Q l); auto. simpl. intros n Hn. eapply In_remove_at; eauto.
  - destruct r0 as [b| |]; try congruence.
    2: { eapply (ModifyAlignmentPoint_Inv ok OL) in H as [[b Hb] _]; eauto. discriminate. }
    destruct (Z.eq_dec b (-1)) as [->|Hb].
    + apply (ModifyAlignmentPoint_fail ok OL) in H; auto. destruct H as (A & B & _).
      eapply (all_on_sub Q l); eauto. rewrite B; auto.
    + apply ModifyAlignmentPoint_exact in H as ((old & mid & R & S) & K1 & K2); auto.
      destruct (Z.eq_dec index 0) as [Z0|Z0]; [|destruct (Z.eq_dec index (Z.of_nat (length (tl_alignment l)) - 1)) as [Z1|Z1]].
      1,2: destruct K2 as (pf & pl & Hf & Hl & K2 & _); auto; unfold all_on; rewrite K2; apply Forall_forall;
        intros n Hn; apply filter_In in Hn as [Hn Hb']; apply HQ1; [apply HI'|apply (stations_ok l n HI Hn)|eapply between_on; eauto].
      destruct K1 as [K1 _]; auto. unfold all_on in *. rewrite K1. rewrite Forall_forall in *. intros n Hn.
      eapply (HQ2 (tl_alignment l)); [apply HI|apply HI'|apply (stations_ok l n HI Hn)| |apply HA; exact Hn].
      intros q Hq. eapply insertion_incl; [exact S|]. apply (removal_ends _ _ _ _ _ _ R); auto.
  - destruct (build_cable _ _ _); [|apply SG; congruence|apply SG; congruence].
    apply drop_eq in H as (r0 & H & _). apply ModifyLineCable_pframe in H. apply PG, H.
  - assert (H0 := H). destruct Hc as [Hc1 Hc2].
    destruct (ModifyLineStructure_Inv ok OL l index s l' r0 HI Hc1 Hc2 H Hr) as [[Er|Er] _].
    2:{ subst r0. apply ModifyLineStructure_fail in H as (A & B & _). eapply (all_on_sub Q l); eauto. rewrite B; auto. }
    subst r0. specialize (Hm l' H0).
    apply ModifyLineStructure_cases in H as [[_ H]|H]; [discriminate| |exact Hr].
    destruct H as (id & s0 & st & Hi & Hn & _ & _ & _ & _ & _ & H). cbn zeta in H.
    destruct H as (c'' & r' & _ & _ & ->). unfold all_on in *. simpl.
    apply Forall_list_set; auto.
  - inversion H; subst. exact HA.
  - apply SG. congruence.
  - apply Line_Validate_content in H as ((C1 & _ & C2) & _ & C3). apply CS. split; [|split]; auto.
Qed.

Lemma run_all_on : forall calls l l', Inv l -> Forall (call_args_ok ok) calls ->
  modifies_on_alignment l calls -> line_run_from l calls = Some l' ->
  all_on on_alignment l -> all_on on_alignment l'.
Proof.
  induction calls as [|c calls IH]; intros l l' HI HO HM H HA; simpl in H; [inversion H; subst; auto|].
  inversion HO; subst. destruct HM as [HM1 HM2].
  destruct (line_step l c) as [l1 r] eqn:E. cbn [fst] in HM2.
  assert (NU : r <> UB) by (intros ->; discriminate).
  apply (IH l1); auto.
  - eapply (step_Inv ok OL l c); eauto.
  - destruct r; congruence.
  - eapply (step_all_on on_alignment l c); eauto using on_range_like. destruct c; auto.
Qed.

(** C06, guarded *)
Lemma line_on_alignment : forall calls l, Forall (call_args_ok ok) calls ->
  modifies_on_alignment Line_empty calls -> line_run calls = Some l ->
  Forall (fun s => on_alignment (tl_alignment l) (ls_station s)) (structures_of l).
Proof.
  intros calls l HO HM H.
  assert (K : all_on on_alignment l).
  { eapply run_all_on; [apply (Inv_empty ok)|exact HO|exact HM|exact H|constructor]. }
  unfold all_on, structures_of in *. rewrite Forall_map. exact K.
Qed.

(** ** No undefined behaviour (C16) *)
Definition live env (p : SPtr N) : Prop := exists s, deref env p = Ok s.

Lemma AddConnection_live : forall env acc c,
  (forall x, In x acc -> live env (cn_line_structure x)) ->
  cn_line_structure c = SNull \/ live env (cn_line_structure c) ->
  exists acc' i, AddConnection env acc c = Ok (acc', i) /\ (forall x, In x acc' -> In x acc \/ x = c) /\
    (forall x, In x acc' -> live env (cn_line_structure x)).
Proof.
  intros env acc c HA Hc.
  assert (K : live env (cn_line_structure c) -> forall m k, (forall x, In x m -> live env (cn_line_structure x)) ->
     exists r, AddConnection_search env c m k = Ok r).
  { intros [s Hs] m. induction m as [|x m IH]; intros k Hm; simpl; [eauto|].
    rewrite Hs. cbn [obind]. destruct (Hm x) as [t Ht]; [simpl; auto|]. rewrite Ht. cbn [obind].
    destruct (_ <? _); [eauto|]. destruct (_ =? _); [eauto|]. apply IH. intros. apply Hm. simpl; auto. }
  unfold AddConnection. destruct (cn_line_structure c) eqn:Ec.
  - exists acc, (-1)%Z. auto.
  - destruct Hc as [Hc|Hc]; [discriminate|]. destruct (K Hc acc 0%nat HA) as [r Hr]. rewrite Hr. cbn [obind].
    destruct r as [pos|]; eexists _, _; (split; [reflexivity|]); [|auto]. split.
    + intros x Hx. apply In_insert_at in Hx. tauto.
    + intros x Hx. apply In_insert_at in Hx as [->|Hx]; auto. rewrite Ec. auto.
  - destruct Hc as [Hc|Hc]; [discriminate|]. destruct (K Hc acc 0%nat HA) as [r Hr]. rewrite Hr. cbn [obind].
    destruct r as [pos|]; eexists _, _; (split; [reflexivity|]); [|auto]. split.
    + intros x Hx. apply In_insert_at in Hx. tauto.
    + intros x Hx. apply In_insert_at in Hx as [->|Hx]; auto. rewrite Ec. auto.
Qed.

Lemma build_live : forall env reqs acc,
  (forall x, In x acc -> live env (cn_line_structure x)) ->
  (forall x, In x reqs -> cn_line_structure x = SNull \/ live env (cn_line_structure x)) ->
  exists cs, build_cable env acc reqs = Ok cs /\ (forall x, In x cs -> In x acc \/ In x reqs) /\
    (forall x, In x cs -> live env (cn_line_structure x)).
Proof.
  intros env. induction reqs as [|c reqs IH]; intros acc HA HR; simpl.
  - exists acc. auto.
  - destruct (AddConnection_live env acc c HA) as (acc' & i & E & E1 & E2); [apply HR; simpl; auto|].
    rewrite E. cbn [obind fst]. destruct (IH acc' E2) as (cs & F & F1 & F2); [intros; apply HR; simpl; auto|].
    exists cs. split; auto. split; auto. intros x Hx. destruct (F1 x Hx) as [K|K]; auto.
    destruct (E1 x K); subst; auto.
Qed.

Lemma safe_live : forall l c, NoDup (ids (tl_line_structures l)) -> connection_safe l c ->
  cn_line_structure c = SNull \/ live (tl_line_structures l) (cn_line_structure c).
Proof.
  intros l c ND H. unfold connection_safe in H. destruct (cn_line_structure c) as [|id|s] eqn:E; auto; right.
  - destruct H as (s & Hs & _). exists s. simpl. rewrite (In_lookup _ id s); auto.
  - exists s. reflexivity.
Qed.

Lemma safe_slot : forall l c s, NoDup (ids (tl_line_structures l)) -> connection_safe l c ->
  deref (tl_line_structures l) (cn_line_structure c) = Ok s ->
  vec_at (ls_hardwares s) (cn_index_attachment c) <> Ok None.
Proof.
  intros l c s ND H D E. unfold vec_at in E.
  destruct (Z.ltb_spec (cn_index_attachment c) 0); [discriminate|].
  destruct (nth_error (ls_hardwares s) _) eqn:En; inversion E; subst.
  unfold connection_safe in H. destruct (cn_line_structure c) as [|id|t] eqn:Ec; simpl in D; try discriminate.
  - destruct H as (t & Ht & Hs). rewrite (In_lookup _ id t) in D by auto. inversion D; subst t. tauto.
  - inversion D; subst t. tauto.
Qed.

Lemma validate_not_UB : forall env cs,
  (forall c, In c cs -> exists s, deref env (cn_line_structure c) = Ok s /\
     vec_at (ls_hardwares s) (cn_index_attachment c) <> Ok None) ->
  ValidateConnections env cs <> UB.
Proof.
  intros env cs H. unfold ValidateConnections. destruct (Nat.ltb _ _); [discriminate|].
  assert (K : ValidateConnections_loop env cs <> UB).
  { induction cs as [|c cs IH]; simpl; [discriminate|].
    destruct (H c) as (s & D & V); [simpl; auto|]. rewrite D. cbn [obind].
    destruct (vec_at (ls_hardwares s) (cn_index_attachment c)) as [[h|]| |] eqn:E; cbn [obind];
      try discriminate; try congruence; [|apply vec_at_UB in E; contradiction].
    apply IH. intros; apply H; simpl; auto. }
  destruct (ValidateConnections_loop env cs); simpl; congruence.
Qed.

Lemma check_not_UB : forall l cs, AddLineCable_check l cs <> UB.
Proof.
  intros l cs. induction cs as [|c cs IH]; simpl; [discriminate|].
  destruct (Z.eqb_spec (IndexLineStructure l (cn_line_structure c)) (-1)) as [E|E]; [discriminate|].
  destruct (IndexLineStructure_owned _ _ E) as (id & s & _ & K1 & K2).
  destruct (HasConnection_exact l (IndexLineStructure l (cn_line_structure c)) (cn_index_attachment c)) as (b & Eb & _).
  { split; auto. assert (Z.to_nat (IndexLineStructure l (cn_line_structure c)) < length (tl_line_structures l))%nat
      by (apply nth_error_Some; congruence). lia. }
  rewrite Eb. cbn [obind]. destruct b; [discriminate|auto].
Qed.

Lemma AddLineCable_safe : forall l lc, cables_ok (tl_line_structures l) (tl_line_cables l) ->
  (forall c, In c (lc_connections lc) -> exists s, deref (tl_line_structures l) (cn_line_structure c) = Ok s /\
     vec_at (ls_hardwares s) (cn_index_attachment c) <> Ok None) ->
  snd (AddLineCable l lc) <> UB.
Proof.
  intros l lc [HC _] H. unfold AddLineCable. assert (V := validate_not_UB _ _ H).
  destruct (ValidateConnections _ _) as [[]| |] eqn:EV; try (simpl; congruence).
  assert (C := check_not_UB l (lc_connections lc)).
  destruct (AddLineCable_check _ _) as [[]| |]; try (simpl; congruence).
  apply validate_true in EV as [EV _].
  destruct (lc_connections lc) as [|c cs]; [simpl in EV; lia|]. cbn [front].
  destruct (search_ok l (IndexLineStructure l (cn_line_structure c)) (cn_index_attachment c) (tl_line_cables l) 0)
    as (pos & -> & _); [|simpl; congruence].
  eapply Forall_impl; [|exact HC]. simpl; tauto.
Qed.

Lemma cleanup_safe : forall A l (v : A), Inv l -> tl_alignment l <> [] -> snd (cleanup l v) = Ok v.
Proof.
  intros A l v HI NE. destruct (nonempty_ends _ _ NE) as (a & b & Ha & Hb).
  destruct (cleanup_exact _ l v a b HI Ha Hb) as (l' & -> & _). reflexivity.
Qed.

(** The surviving connections keep their hardware. *)
Lemma strip_hw_ok : forall structs cables n id s s0 st,
  NoDup (ids structs) -> cables_refs structs cables -> nth_error structs n = Some (id, s0) ->
  ls_structure s = Some st -> wf_structure s ->
  (forall lc c, In lc cables -> In c (lc_connections lc) -> cn_line_structure c = SOwned id ->
     (cn_index_attachment c < Z.of_nat (length (st_attachments st)))%Z ->
     nth_error (ls_hardwares s) (Z.to_nat (cn_index_attachment c)) <> Some None) ->
  Forall (fun lc => Forall (hw_ok (list_set n (id, s) structs)) (lc_connections lc))
    (strip (fun c => negb (points_to id c &&
        (Z.of_nat (length (st_attachments st)) <=? cn_index_attachment c)%Z)) cables).
Proof.
  intros structs cables n id s s0 st ND [HR _] Hn Est Hw HH.
  unfold strip. apply Forall_forall. intros lc Hlc. apply in_map_iff in Hlc as (lc0 & <- & Hlc0).
  simpl. apply Forall_forall. intros c Hc. apply filter_In in Hc as [Hc Hkeep].
  rewrite Forall_forall in HR. destruct (HR lc0 Hlc0) as [_ HW]. rewrite Forall_forall in HW.
  destruct (HW c Hc) as (j & sj & h & E1 & E2 & E3).
  destruct (Nat.eq_dec j id) as [->|Hj].
  - assert (E4 := E3). apply vec_at_ok_range in E4 as [E4 _].
    apply negb_true_iff in Hkeep.
    assert (K : points_to id c = true) by (apply points_to_iff; auto).
    rewrite K in Hkeep. simpl in Hkeep. apply Z.leb_gt in Hkeep.
    specialize (HH lc0 c Hlc0 Hc E1 Hkeep).
    unfold wf_structure, slots_match in Hw. rewrite Est in Hw.
    destruct (nth_error_exists _ (ls_hardwares s) (Z.to_nat (cn_index_attachment c))) as [[h'|] Hh];
      [lia| |congruence].
    exists id, s, h'. rewrite (list_set_lookup_same n id s s0) by auto. split; auto. split; auto.
    unfold vec_at. destruct (Z.ltb_spec (cn_index_attachment c) 0); [lia|]. rewrite Hh. auto.
  - exists j, sj, h. rewrite (list_set_lookup_other n id s s0) by auto. auto.
Qed.

Lemma ModifyLineStructure_safe : forall l i s, Inv l -> Inv2 l -> wf_structure s ->
  ((0 <= i < Z.of_nat (length (tl_line_structures l)))%Z ->
      exists st, ls_structure s = Some st /\
        forall id lc c, address_at l (Z.to_nat i) id -> In lc (tl_line_cables l) ->
          In c (lc_connections lc) -> cn_line_structure c = SOwned id ->
          (cn_index_attachment c < Z.of_nat (length (st_attachments st)))%Z ->
          nth_error (ls_hardwares s) (Z.to_nat (cn_index_attachment c)) <> Some None) ->
  exists b, snd (ModifyLineStructure l i s) = Ok b.
Proof.
  intros l i s (I1 & I2 & I3) (_ & _ & J) Hw HS. unfold ModifyLineStructure.
  change (IsValidLineStructureIndex (stale_structures l) i) with (valid_index (tl_line_structures l) i).
  destruct (valid_index (tl_line_structures l) i) eqn:EV; cbn [negb]; [|simpl; eauto].
  change (tl_line_structures (stale_structures l)) with (tl_line_structures l).
  change (tl_alignment (stale_structures l)) with (tl_alignment l).
  apply valid_index_true in EV. destruct (HS EV) as (st & Est & HH).
  assert (NE : tl_alignment l <> []).
  { apply J. intros E. rewrite E in EV. simpl in EV. lia. }
  destruct (front_back_ok _ _ NE) as (pf & pb & Ef & Eb). rewrite Ef, Eb. cbn [obind].
  destruct (next_deref_in _ (tl_line_structures l) i EV) as ([id s0] & Ei & En). rewrite Ei.
  assert (Kb : exists sb, (if (i =? 0)%Z then Ok (ap_station pf - #1)
       else omap (fun s => ls_station (snd s)) (next_deref (tl_line_structures l) (i - 1))) = Ok sb).
  { destruct (Z.eqb_spec i 0) as [|Hi]; [eauto|].
    destruct (next_deref_in _ (tl_line_structures l) (i - 1)) as (x & -> & _); [lia|]. simpl; eauto. }
  assert (Ka : exists sa, (if (i =? Z.of_nat (length (tl_line_structures l)) - 1)%Z then Ok (ap_station pb + #1)
       else omap (fun s => ls_station (snd s)) (next_deref (tl_line_structures l) (i + 1))) = Ok sa).
  { destruct (Z.eqb_spec i (Z.of_nat (length (tl_line_structures l)) - 1)) as [|Hi]; [eauto|].
    destruct (next_deref_in _ (tl_line_structures l) (i + 1)) as (x & -> & _); [lia|]. simpl; eauto. }
  destruct Kb as [sb ->]. cbn [obind]. destruct Ka as [sa ->]. cbn [obind fst].
  destruct (_ || _); [simpl; eauto|].
  unfold DeleteInvalidConnectionsFromStructure. rewrite Est.
  unfold line_DeleteInvalidLineCables. simpl tl_line_cables. simpl tl_line_structures.
  fold (strip (P := P) (fun c => negb (points_to id c && (Z.of_nat (length (st_attachments st)) <=? cn_index_attachment c)%Z)) (tl_line_cables l)).
  rewrite delete_invalid_hw_ok; [simpl; eauto|].
  apply strip_hw_ok with (s0 := s0); auto; [apply I2|apply cables_ok_refs; auto|].
  intros lc c H1 H2 H3 H4. apply (HH id lc c); auto. exists s0. auto.
Qed.

Lemma query_safe : forall A l (f : A) k, Inv2 l ->
  (forall l', same_content l l' -> tl_points_alignment l' = PointsAlignment (tl_origin l) (tl_alignment l) ->
     k l' <> UB) -> snd (query l f k) <> UB.
Proof.
  intros A l f k HI H. destruct (query l f k) as [l' r] eqn:E.
  apply query_body in E as (S & _ & K & [->|[-> _]]); auto; simpl; [apply H; auto|discriminate].
Qed.

Lemma omap_not_UB : forall A B (f : A -> B) x, x <> UB -> omap f x <> UB.
Proof. intros A B f [] H; simpl; congruence. Qed.

Lemma vector_structure_UB : forall a pts s, a <> [] -> VectorXyAlignmentStructure (N := N) a pts s <> UB.
Proof.
  intros a pts s NE. unfold VectorXyAlignmentStructure.
  destruct (IndexSegment_range a (ls_station s) NE) as (i & -> & _). cbn [obind].
  destruct (front_back_ok _ _ NE) as (pf & pb & -> & ->). cbn [obind].
  destruct (_ || _); [apply segment_UB|]. destruct (negb _); [apply segment_UB|].
  destruct (VectorXyAlignmentSegment pts i) eqn:E; cbn [obind]; [|discriminate|apply segment_UB in E; contradiction].
  destruct (VectorXyAlignmentSegment pts (i + 1)) eqn:E'; cbn [obind];
    [discriminate|discriminate|apply segment_UB in E'; contradiction].
Qed.

Lemma step_safe : forall l c, Inv l -> Inv2 l -> call_args_ok ok c -> call_safe l c ->
  snd (line_step l c) <> UB.
Proof.
  intros l c HI HI2 Hc Hs.
  assert (ND : NoDup (ids (tl_line_structures l))) by apply HI.
  assert (BL : forall reqs, Forall (connection_safe l) reqs ->
     exists cs, build_cable (tl_line_structures l) [] reqs = Ok cs /\
       forall c, In c cs -> exists s, deref (tl_line_structures l) (cn_line_structure c) = Ok s /\
         vec_at (ls_hardwares s) (cn_index_attachment c) <> Ok None).
  { intros reqs HF. rewrite Forall_forall in HF.
    destruct (build_live (tl_line_structures l) reqs []) as (cs & E & E1 & E2); [simpl; tauto| |].
    - intros x Hx. apply safe_live; auto.
    - exists cs. split; auto. intros x Hx. destruct (E2 x Hx) as [s Es]. exists s. split; auto.
      eapply safe_slot; eauto. destruct (E1 x Hx) as [[]|K]. apply HF; auto. }
  destruct c; simpl in Hc, Hs; unfold line_step; try (unfold drop; cbn [snd]; apply omap_not_UB).
  - unfold AddAlignmentPoint. destruct (AddPoint _ _). discriminate.
  - destruct (BL _ Hs) as (cs & -> & K). unfold drop; cbn [snd]; apply omap_not_UB.
    apply AddLineCable_safe; [apply HI|exact K].
  - unfold AddLineStructure. change (tl_alignment (stale_structures l)) with (tl_alignment l).
    unfold IsValidStation. destruct (front_back_ok _ _ Hs) as (pf & pb & -> & ->). cbn [obind].
    destruct (_ && _); [|discriminate]. destruct (AddLineStructure_search _ _ _); discriminate.
  - unfold DeleteAlignmentPoint. change (tl_alignment (stale_all l)) with (tl_alignment l). unfold DeletePoint.
    destruct (valid_index (tl_alignment l) index) eqn:EV; cbn [andb]; [|discriminate].
    assert (EV' := EV). apply valid_index_true in EV.
    destruct (is_boundary_point (tl_alignment l) index); [|discriminate].
    rewrite cleanup_safe; [discriminate| |].
    + apply with_alignment_Inv; [exact HI|]. assert (D := DeletePoint_sorted ok (tl_alignment l) index (proj1 HI)).
      unfold DeletePoint in D. rewrite EV' in D. exact D.
    + intros E. apply remove_at_empty in E; [|lia]. apply Hs. split; auto. lia.
  - unfold DeleteLineCable. destruct (negb _); discriminate.
  - destruct (DeleteLineStructure l index) as [l' r] eqn:E.
    apply (DeleteLineStructure_cases ok) in E as [(_ & -> & _)|(-> & _)]; auto; discriminate.
  - unfold ModifyAlignmentPoint. change (tl_alignment (stale_all l)) with (tl_alignment l).
    assert (D := ModifyPoint_sorted ok OL (tl_alignment l) index p (proj1 HI) Hc).
    assert (NE := ModifyPoint_nonempty (tl_alignment l) index p).
    destruct (ModifyPoint (tl_alignment l) index p) as [a j] eqn:EM. cbn [fst] in *.
    destruct (Z.eqb_spec j (-1)) as [Ej|Ej]; cbn [negb andb]; [discriminate|].
    destruct (is_boundary_point (tl_alignment l) index); [|discriminate].
    rewrite cleanup_safe; [discriminate|apply with_alignment_Inv; [exact HI|exact D]|].
    apply NE. intros E. rewrite E in EM. unfold ModifyPoint, valid_index in EM. simpl in EM.
    rewrite andb_comm in EM. destruct (index <? 0)%Z eqn:E1; [|inversion EM; congruence].
    apply Z.ltb_lt in E1. destruct (Z.leb_spec 0 index); [lia|]. inversion EM; congruence.
  - destruct (BL _ Hs) as (cs & -> & K). unfold drop; cbn [snd]; apply omap_not_UB.
    unfold ModifyLineCable, IsValidLineCableIndex, DeleteLineCable, IsValidLineCableIndex.
    destruct (valid_index (tl_line_cables l) index) eqn:EV; cbn [negb]; [|discriminate].
    apply valid_index_true in EV.
    destruct (next_deref_in _ (tl_line_cables l) index EV) as (cache & -> & En).
    set (l1 := with_cables l (remove_at (Z.to_nat index) (tl_line_cables l))).
    assert (HI1 : Inv l1).
    { assert (Q := DeleteLineCable_Inv ok l index HI). unfold DeleteLineCable, IsValidLineCableIndex in Q.
      rewrite (proj2 (valid_index_true _ _) EV) in Q. exact Q. }
    assert (A := AddLineCable_safe l1 (mkLC cs payload) (proj2 (proj2 HI1)) K).
    destruct (AddLineCable l1 (mkLC cs payload)) as [l2 r2] eqn:EA. cbn [snd] in A.
    destruct r2 as [j| |]; try (simpl; congruence).
    destruct (Z.eqb_spec j (-1)) as [Ej|Ej]; [|discriminate].
    assert (l2 = l1).
    { apply AddLineCable_cases in EA as [[-> _]|(pos & E & _)]; auto. inversion E. lia. }
    subst l2. destruct (readd_cable ok l _ _ HI En) as (pos & _ & Q). cbn zeta in Q. fold l1 in Q.
    rewrite Q. discriminate.
  - destruct Hc as [_ Hw]. destruct (ModifyLineStructure_safe l index s HI HI2 Hw Hs) as [b ->]. discriminate.
  - discriminate.
  - apply query_safe; auto. discriminate.
  - apply query_safe; auto. discriminate.
  - apply query_safe; auto. intros l' (S & _) Q. rewrite S, Q. apply FromStation_UB; auto.
    rewrite PointsAlignment_length. auto.
  - apply query_safe; auto. intros l' _ _. destruct (negb _); [discriminate|apply vec_at_UB].
  - apply query_safe; auto. intros l' (S1 & S2 & S3) Q.
    unfold IsValidLineStructureIndex. rewrite S3.
    destruct (valid_index (tl_line_structures l) index_structure) eqn:EV; cbn [negb]; [|discriminate].
    apply valid_index_true in EV.
    destruct (next_deref_in _ _ _ EV) as ([id s] & -> & En). cbn [obind snd].
    assert (HN : ls_structure s <> None).
    { apply Hs; [lia|]. unfold structures_of. erewrite map_nth_error; [|exact En]. reflexivity. }
    destruct (ls_structure s) as [st|]; [|congruence].
    destruct (negb _); [discriminate|].
    destruct (vec_at (st_attachments st) index_attachment) eqn:E; cbn [obind];
      [|discriminate|apply vec_at_UB in E; contradiction].
    assert (NE : tl_alignment l' <> []).
    { rewrite S1. apply HI2. intros E0. rewrite E0 in EV. simpl in EV. lia. }
    assert (W := vector_structure_UB (tl_alignment l') (tl_points_alignment l') s NE).
    destruct (VectorXyAlignmentStructure _ _ _); cbn [obind]; [|discriminate|congruence].
    destruct (vec_at (tl_points_structures l') index_structure) eqn:E2; cbn [obind];
      [discriminate|discriminate|apply vec_at_UB in E2; contradiction].
  - destruct (HasConnection_exact l _ index_attachment Hs) as (b & E & _). rewrite E. discriminate.
  - unfold Line_Validate. destruct parts; [|discriminate|congruence].
    destruct (Update l) as [l' r] eqn:E. apply Update_UB in E; auto. destruct r; simpl; congruence.
Qed.

End P.
