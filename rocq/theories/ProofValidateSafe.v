(** Validation of a reachable line returns, and a validated line answers the coordinate
    queries. *)
From Coq Require Import ZArith Bool List Lia String Sorting.Sorted.
From Verif Require Import Num ModelBase ModelAlignment ModelLine ModelCable ModelCatenary ModelLoad ModelSagtension
  SpecLine ListFacts ProofAlignment SpecTransmission ProofLine ProofLineInv ProofLineFacts ProofLineCoord ProofLineQuery ProofLineSafe
  ModelValidate SpecValidate ProofValidate ProofValidateLine ProofValidateCoord.
Import ListNotations.
Open Scope num_scope.
Open Scope list_scope.

Section P.
Context {N : Num} (ok : N -> Prop) (OL : OrdLaws N ok).

(** Stations increase with the position. *)
Lemma sorted_nth : forall (xs : list N) i j x y, StronglySorted (fun a b => (a <? b) = true) xs -> (i < j)%nat ->
  nth_error xs i = Some x -> nth_error xs j = Some y -> (x <? y) = true.
Proof.
  induction xs as [|z xs IH]; intros i j x y H L Hi Hj; [destruct i; discriminate|].
  inversion H as [|? ? H1 H2]; subst. destruct j as [|j]; [lia|]. destruct i as [|i]; cbn in *.
  - injection Hi as <-. rewrite Forall_forall in H2. apply H2. eapply nth_error_In; eauto.
  - apply (IH i j); auto. lia.
Qed.

Lemma direction_ok : forall (a : list (AlignmentPoint N)) pts (s : LineStructure N), sorted_pts ok a -> ok (ls_station s) ->
  (2 <= List.length a)%nat -> List.length pts = List.length a -> on_alignment a (ls_station s) ->
  exists v, VectorXyAlignmentStructure a pts s = Ok v.
Proof.
  intros a pts s HS Hst H2 HL (pf & pl & Hf & Hl & L1 & L2).
  destruct HS as [HO HT]. assert (HO' := HO). rewrite Forall_forall in HO'.
  assert (OK : forall i p, nth_error a i = Some p -> ok (ap_station p)).
  { intros i p H. apply HO', in_map. eapply nth_error_In; eauto. }
  rewrite (ol_le N ok OL) in L1, L2 by eauto. apply negb_true_iff in L1, L2.
  destruct (IndexSegment_spec ok OL a (ls_station s) pf pl (conj HO HT) Hst H2 Hf Hl) as (i & E & E1 & E2).
  assert (Ei : i <> (-1)%Z). { intros ->. destruct E1 as [E1 _]. destruct (E1 eq_refl); congruence. }
  destruct (E2 Ei) as (Hi & x & y & Hx & Hy & Ly & Lx). clear E1 E2.
  unfold VectorXyAlignmentStructure. rewrite E. cbn [obind].
  assert (NE : a <> []) by (intros ->; discriminate).
  destruct (front_back_ok _ _ NE) as (pf' & pb & Ef & Eb). rewrite Ef, Eb. cbn [obind].
  destruct a as [|p0 rest]; [congruence|]. cbn in Hf, Ef. assert (pf' = p0) as -> by congruence. injection Hf as <-.
  assert (pb = pl) as ->.
  { cbn in Eb. replace (List.length (p0 :: rest) - 1)%nat with (List.length rest) in Hl by (cbn; lia).
    rewrite last_nth_error in Hl. congruence. }
  destruct (segment_ok pts i) as [v Hv]; [lia|]. rewrite Hv. cbn [obind].
  destruct ((_ =? _) || (_ =? _)) eqn:D; [eexists; reflexivity|]. apply orb_false_iff in D as [D1 D2].
  destruct (negb _) eqn:X; [eexists; reflexivity|]. apply negb_false_iff, existsb_exists in X as (p & Hp & Ep).
  destruct (segment_ok pts (i + 1)) as [w Hw]; [|rewrite Hw; eexists; reflexivity].
  destruct (Z.eq_dec i (Z.of_nat (List.length pts) - 2)) as [Q|Q]; [exfalso|lia].
  apply In_nth_error in Hp as [j Hj].
  assert (J : (j < List.length (p0 :: rest))%nat) by (apply nth_error_Some; congruence).
  rewrite (ol_eq N ok OL) in Ep, D2 by eauto. apply andb_true_iff in Ep as [P1 P2]. apply negb_true_iff in P1, P2.
  destruct (Nat.eq_dec j (List.length (p0 :: rest) - 1)) as [->|NJ].
  - assert (p = pl) as -> by congruence. rewrite P1, P2 in D2. discriminate.
  - destruct Lx as [Lx|[_ Lx]]; [|congruence].
    destruct (Nat.eq_dec j (Z.to_nat i)) as [->|NI].
    + assert (p = x) as -> by congruence. congruence.
    + assert (M : (ap_station p <? ap_station x) = true).
      { apply (sorted_nth (map ap_station (p0 :: rest)) j (Z.to_nat i)); auto; [lia| |]; apply map_nth_error; auto. }
      assert (ok (ap_station p) /\ ok (ap_station x)) as [Op Ox] by eauto.
      assert (Z := ol_trans N ok OL _ _ _ Op Ox Hst M Lx). congruence.
Qed.

(** ** Validate returns *)
Lemma ruling_ok : forall s : Stringing N, Stringing_inputs_valid s = true -> exists k, CatenaryRulingSpan s = Ok k.
Proof.
  intros s H. unfold Stringing_inputs_valid in H. apply andb_true_iff in H as [H _]. apply andb_true_iff in H as [H _].
  apply andb_true_iff in H as [H _]. apply andb_true_iff in H as [H1 H2].
  unfold CatenaryRulingSpan, unit_load. destruct (sr_cable s); [|discriminate].
  unfold Constraint_Validate in H2. destruct (co_weather (sr_constraint s)).
  - eexists. reflexivity.
  - cbn in H2. discriminate.
Qed.

Lemma cables_return : forall (env : Env N) (cables : list (Strung N)) c,
  Forall (fun l => Forall (ProofLine.hw_ok env) (lc_connections l)) cables -> exists d, LineCables_loop env cables c = Ok d.
Proof.
  intros env cables c H. revert c. induction H as [|l cables Hl H IH]; intros c; [eexists; reflexivity|].
  cbn [LineCables_loop]. destruct (LineCable_answers env l) as (r & A & B & _). rewrite A.
  assert (Q : exists b, Strung_Validate env l = Ok b).
  { unfold Strung_Validate. destruct (Stringing_inputs_valid (lc_payload l)) eqn:E; [|eexists; reflexivity].
    apply ruling_ok in E as [k ->]. cbn [obind]. unfold ValidateConnections.
    destruct (Nat.ltb _ _); [|rewrite validate_hw_ok by auto]; eexists; reflexivity. }
  destruct Q as [b Q]. rewrite Q in B. destruct r as [[v e]| |]; try discriminate. apply IH.
Qed.

Lemma parts_return : forall (l : Line N (Stringing N)) m, Inv ok l -> exists c, Line_parts l m = Ok c.
Proof.
  intros l m (_ & _ & H & _). unfold Line_parts. apply cables_return. eapply Forall_impl; [|exact H]. intros x (_ & _ & K). exact K.
Qed.

Lemma Update_ok : forall (P : Type) (l : Line N P), Inv ok l -> Inv2 l ->
  ((2 <= List.length (tl_alignment l))%nat \/ tl_line_structures l = []) -> exists l', Update l = (l', Ok true).
Proof.
  intros P l HI HJ H. unfold Update. cbn zeta.
  set (l1 := if tl_is_updated_alignment l then l else _).
  assert (K : tl_alignment l1 = tl_alignment l /\
    tl_line_structures l1 = tl_line_structures l /\ tl_points_alignment l1 = PointsAlignment (tl_origin l) (tl_alignment l)).
  { unfold l1. destruct (tl_is_updated_alignment l) eqn:E; cbn; repeat split; auto. apply HJ; auto. }
  destruct K as (K2 & K3 & K6). destruct (tl_is_updated_structures l1); [eexists; reflexivity|].
  rewrite K2, K3, K6. destruct H as [H|H].
  - destruct HI as (S1 & (S2 & _) & _).
    destruct (structures_loop_ok ok OL (tl_alignment l) (PointsAlignment (tl_origin l) (tl_alignment l)) (tl_line_structures l)) as [E _]; auto.
    { apply PointsAlignment_length. }
    destruct (UpdatePointsXyzLineStructures_loop _ _ _) as [ps r]. cbn in E. subst r. eexists. reflexivity.
  - rewrite H. cbn. eexists. reflexivity.
Qed.

Lemma validate_returns : forall (l : Line N (Stringing N)) m, reachable ok l ->
  ((2 <= List.length (tl_alignment l))%nat \/ tl_line_structures l = []) -> exists c, snd (Line_report l m) = Ok c.
Proof.
  intros l m HR H. assert (HI := reachable_Inv ok OL l HR). assert (HJ := reachable_Inv2 ok l HR).
  unfold Line_report. destruct (parts_return l m HI) as [c ->]. destruct (Update_ok _ l HI HJ H) as [l' ->]. eexists. reflexivity.
Qed.

(** ** A validated line *)
Lemma validated : forall (l l' : Line N (Stringing N)) m m', Line_report l m = (l', Ok (true, m')) ->
  Line_Validate l (Ok true) = (l', Ok true) /\
  Forall (fun s => line_structure_ok s = true) (structures_of l).
Proof.
  intros l l' m m' H. destruct (Line_answers l) as (r & parts & A & B & _ & C).
  rewrite A in H. destruct r as [[v e]| |]; try discriminate. injection H as H1 -> _.
  destruct (C true e eq_refl) as (-> & _ & D & _). split.
  - destruct (Line_Validate l (Ok true)); cbn in *; congruence.
  - unfold structures_of. apply Forall_forall. intros s Hs. apply in_map_iff in Hs as (n & <- & Hn). auto.
Qed.

(** Every structure that passed has a base structure with attachments below its height. *)
Lemma structure_checked : forall s : LineStructure N, line_structure_ok s = true ->
  exists st, ls_structure s = Some st /\ st_attachments st <> [] /\ (st_height st <=? #0) = false /\
    Forall (fun a => (st_height st <? sa_offset_vertical_top a) = false) (st_attachments st).
Proof.
  intros s H. unfold line_structure_ok in H. apply andb_true_iff in H as [_ H].
  destruct (ls_structure s) as [st|]; [|discriminate]. exists st. split; auto. unfold structure_ok in H.
  apply andb_true_iff in H as [H H2]. apply andb_true_iff in H as [H H1]. apply negb_true_iff in H1. split; [|split; auto].
  - intros E. rewrite E in H. discriminate.
  - rewrite forallb_forall in H2. apply Forall_forall. intros a Ha. apply H2 in Ha. apply negb_true_iff in Ha. auto.
Qed.

(** The queries of a validated line. *)
Lemma validated_queries : forall (l l' : Line N (Stringing N)) m m', reachable ok l -> Line_report l m = (l', Ok (true, m')) ->
  (2 <= List.length (tl_alignment l))%nat ->
  (exists ps, PointsXyzAlignment l' = (l', Ok (Some ps)) /\ List.length ps = List.length (tl_alignment l)) /\
  (exists ps, PointsXyzLineStructures l' = (l', Ok (Some ps)) /\ List.length ps = List.length (tl_line_structures l)) /\
  (forall x, ok x -> exists p, PointXyzAlignment l' x = (l', Ok p)) /\
  (forall i, exists p, PointXyzLineStructure l' i = (l', Ok p)) /\
  (forall i j, snd (PointXyzLineStructureAttachment l' i j) <> UB) /\
  (forall i j s, nth_error (structures_of l) i = Some s -> on_alignment (tl_alignment l) (ls_station s) ->
     exists p, PointXyzLineStructureAttachment l' (Z.of_nat i) j = (l', Ok p)).
Proof.
  intros l l' m m' HR H H2. assert (HI := reachable_Inv ok OL l HR). assert (HJ := reachable_Inv2 ok l HR).
  assert (HI3 := reachable_Inv3 ok l HR). apply validated in H as [H HF].
  unfold Line_Validate in H. destruct (Update l) as [l1 r1] eqn:EU.
  assert (C := Update_content _ _ _ EU). destruct C as ((C1 & C2 & C3) & _ & C4).
  assert (A := Update_Inv2 _ _ _ HJ EU). destruct A as [(_ & A2 & _) _].
  apply Update_Inv3 in EU as [I' G]; auto. destruct r1 as [u| |]; try discriminate.
  destruct (G u eq_refl) as (-> & Ga & Gs). clear G. injection H as <-.
  specialize (I' Gs). specialize (A2 Ga). rewrite C1, C3, C4 in I'. rewrite C1, C4 in A2.
  destruct HI as (S1 & (S2 & _) & _).
  assert (LP : List.length (tl_points_alignment l1) = List.length (tl_alignment l)) by (rewrite A2; apply PointsAlignment_length).
  assert (LS : List.length (tl_points_structures l1) = List.length (tl_line_structures l)).
  { destruct (structures_loop_ok ok OL (tl_alignment l) (PointsAlignment (tl_origin l) (tl_alignment l)) (tl_line_structures l)) as [_ E]; auto;
      [apply PointsAlignment_length|]. rewrite I' in E. exact E. }
  unfold PointsXyzAlignment, PointsXyzLineStructures, PointXyzAlignment, PointXyzLineStructure, PointXyzLineStructureAttachment.
  split; [|split; [|split; [|split; [|split]]]].
  - rewrite ready_query by auto. eexists. split; [reflexivity|auto].
  - rewrite ready_query by auto. eexists. split; [reflexivity|auto].
  - intros x Hx. rewrite ready_query by auto. rewrite C1.
    destruct (FromStation_ok ok OL (tl_alignment l) (tl_points_alignment l1) x S1 Hx H2 LP) as [p ->]. eauto.
  - intros i. rewrite ready_query by auto. unfold IsValidLineStructureIndex, valid_index. rewrite C3.
    destruct (_ && _)%bool eqn:E; cbn [negb]; [|eauto]. apply andb_true_iff in E as [E1 E2]. apply Z.leb_le in E1. apply Z.ltb_lt in E2.
    destruct (vec_at_range _ (tl_points_structures l1) i) as [p ->]; [lia|]. eauto.
  - intros i j. rewrite ready_query by auto. cbn [snd]. unfold IsValidLineStructureIndex, valid_index. rewrite C3, C1.
    destruct (_ && _)%bool eqn:E; cbn [negb]; [|discriminate]. apply andb_true_iff in E as [E1 E2]. apply Z.leb_le in E1. apply Z.ltb_lt in E2.
    destruct (next_deref_in _ (tl_line_structures l) i) as (n & -> & Hn); [lia|]. cbn [obind].
    assert (Hs : In (snd n) (structures_of l)) by (apply in_map; eapply nth_error_In; eauto).
    rewrite Forall_forall in HF. destruct (structure_checked _ (HF _ Hs)) as (st & -> & _).
    destruct (_ && _)%bool eqn:E; cbn [negb]; [|discriminate]. apply andb_true_iff in E as [E3 E4]. apply Z.leb_le in E3. apply Z.ltb_lt in E4.
    destruct (vec_at_range _ (st_attachments st) j) as [a ->]; [lia|]. cbn [obind]. cbn zeta.
    destruct (vec_at_range _ (tl_points_structures l1) i) as [p ->]; [lia|].
    assert (NE : tl_alignment l <> []) by (intros X; rewrite X in H2; cbn in H2; lia).
    assert (K := ProofLineSafe.vector_structure_UB (tl_alignment l) (tl_points_alignment l1) (snd n) NE).
    destruct (VectorXyAlignmentStructure _ _ _); cbn [obind]; congruence.
  - intros i j s Hs HA. rewrite ready_query by auto. unfold IsValidLineStructureIndex, valid_index. rewrite C3, C1.
    unfold structures_of in Hs.
    assert (HFs : line_structure_ok s = true) by (rewrite Forall_forall in HF; apply HF; eapply nth_error_In; eauto).
    destruct (nth_error (tl_line_structures l) i) as [n|] eqn:Hn;
      [|rewrite nth_error_map, Hn in Hs; discriminate].
    rewrite nth_error_map, Hn in Hs. cbn in Hs. injection Hs as <-.
    assert (L : (i < List.length (tl_line_structures l))%nat) by (apply nth_error_Some; congruence).
    destruct (_ && _)%bool eqn:E; cbn [negb]; [|eauto]. clear E.
    destruct (next_deref_in _ (tl_line_structures l) (Z.of_nat i)) as (n' & -> & Hn'); [lia|]. cbn [obind].
    rewrite Nat2Z.id in Hn'. assert (n' = n) as -> by congruence.
    destruct (structure_checked _ HFs) as (st & -> & _).
    destruct (_ && _)%bool eqn:E'; cbn [negb]; [|eauto]. apply andb_true_iff in E' as [E3 E4]. apply Z.leb_le in E3. apply Z.ltb_lt in E4.
    destruct (vec_at_range _ (st_attachments st) j) as [a ->]; [lia|]. cbn [obind]. cbn zeta.
    destruct (vec_at_range _ (tl_points_structures l1) (Z.of_nat i)) as [p ->]; [lia|].
    assert (ok (ls_station (snd n))).
    { rewrite Forall_forall in S2. apply S2. unfold stations. apply in_map_iff. exists n. split; auto. eapply nth_error_In; eauto. }
    destruct (direction_ok (tl_alignment l) (tl_points_alignment l1) (snd n)) as [v ->]; auto. cbn [obind]. eauto.
Qed.
End P.
