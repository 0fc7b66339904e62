(** Coordinate queries compared with a freshly built line. *)
From Coq Require Import ZArith Bool List Lia.
From Verif Require Import Num ModelBase ModelAlignment ModelLine SpecLine ListFacts ProofAlignment
  SpecTransmission ProofLine ProofLineInv ProofLineFacts ProofLineCoord.
Import ListNotations.
Open Scope num_scope.

Section P.
Context {N : Num} (ok : N -> Prop) (OL : OrdLaws N ok) {P : Type}.
Implicit Types l : Line N P.

Lemma reachable_Inv2 : forall l, reachable ok l -> Inv2 l.
Proof. intros l (calls & _ & H). eapply run_Inv2; eauto. Qed.

Lemma fresh_Inv2 : forall l, fresh_line l -> Inv2 l.
Proof. intros l (calls & _ & H). eapply run_Inv2; eauto. Qed.

Lemma query_two_points : forall A l (f : A) k, Inv ok l -> Inv2 l -> two_points l ->
  snd (query l f k) = k (fst (query l f k)).
Proof.
  intros A l f k HI HI2 H2. destruct (query l f k) as [l' r] eqn:E. cbn [fst snd].
  destruct (IsUpdated l) eqn:EU.
  - unfold query in E. rewrite EU in E. inversion E; subst; auto.
  - unfold IsUpdated in EU. apply orb_false_iff in EU.
    eapply (query_good ok OL) in E; eauto; [tauto|]. left; auto.
Qed.

Lemma tail_alignment : forall tail l l', Forall (fun c => is_query c || is_cable_call c = true) tail ->
  line_run_from l tail = Some l' -> tl_alignment l' = tl_alignment l.
Proof.
  induction tail as [|c tail IH]; intros l l' HT H; simpl in H; [congruence|].
  inversion HT; subst. destruct (line_step l c) as [l3 r3] eqn:E.
  assert (K : tl_alignment l3 = tl_alignment l).
  { clear - E H2. destruct c; try discriminate; simpl in E; try (apply drop_eq in E as (r0 & E & _));
      try (apply query_content in E as ((E & _) & _); exact E).
    - destruct (build_cable _ _ _); [|inversion E; auto|inversion E; auto].
      apply drop_eq in E as (r0 & E & _). apply AddLineCable_pframe in E. apply E.
    - apply DeleteLineCable_pframe in E. apply E.
    - destruct (build_cable _ _ _); [|inversion E; auto|inversion E; auto].
      apply drop_eq in E as (r0 & E & _). apply ModifyLineCable_pframe in E. apply E.
    - inversion E; auto.
    - apply Line_Validate_content in E as ((E & _) & _). exact E. }
  rewrite <- K. apply IH; auto. destruct r3; congruence.
Qed.

Lemma nonquery_run_flags : forall mods l l', Forall (fun c => is_query c = false) mods ->
  tl_is_updated_alignment l = false -> tl_is_updated_structures l = false ->
  line_run_from l mods = Some l' ->
  tl_is_updated_alignment l' = false /\ tl_is_updated_structures l' = false.
Proof.
  induction mods as [|c mods IH]; intros l l' HF Ha Hs H; simpl in H; [inversion H; subst; auto|].
  inversion HF; subst. destruct (line_step l c) as [l1 r] eqn:E.
  assert (NU : r <> UB) by (intros ->; discriminate).
  destruct (nonquery_step_flags l c l1 r H2 Ha Hs E NU) as [Ka Ks].
  apply (IH l1); auto. destruct r; congruence.
Qed.

(** The last alignment edit, then edits of any kind, then queries and cable
    calls. *)
Lemma structure_points_current2 : forall hist e mods tail l,
  Forall (call_args_ok ok) (hist ++ e :: mods ++ tail) -> is_alignment_edit e = true ->
  Forall (fun c => is_query c = false) mods ->
  Forall (fun c => is_query c || is_cable_call c = true) tail ->
  line_run (hist ++ e :: mods ++ tail) = Some l -> two_points l ->
  Inv ok l /\ Inv2 l /\ good l.
Proof.
  intros hist e mods tail l HO He HM HT H H2.
  assert (HI : Inv ok l) by (eapply run_Inv; eauto).
  assert (HI2 : Inv2 l) by (eapply run_Inv2; eauto).
  split; auto. split; auto.
  replace (hist ++ e :: mods ++ tail) with ((hist ++ e :: mods) ++ tail) in * by (rewrite <- app_assoc; auto).
  unfold line_run in H. rewrite run_from_app in H.
  destruct (line_run_from Line_empty (hist ++ e :: mods)) as [l2|] eqn:E1; [|discriminate].
  apply Forall_app in HO as [HO1 HO2].
  assert (A1 : Inv ok l2) by (exact (run_Inv ok OL _ l2 HO1 E1)).
  assert (A2 : Inv2 l2) by (exact (run_Inv2 _ l2 E1)).
  assert (G : good l2).
  { left. rewrite run_from_app in E1. destruct (line_run_from Line_empty hist) as [l1|]; [|discriminate].
    simpl in E1. destruct (line_step l1 e) as [l1' r] eqn:Ee.
    destruct (alignment_edit_flags _ _ _ _ He Ee) as [Fa Fs].
    eapply (nonquery_run_flags mods l1'); eauto. destruct r; congruence. }
  eapply (tail_run ok OL tail l2); eauto. unfold two_points. rewrite <- (tail_alignment tail l2 l HT H). exact H2.
Qed.

Lemma structure_answers_current : forall hist e mods tail l l0,
  Forall (call_args_ok ok) (hist ++ e :: mods ++ tail) -> is_alignment_edit e = true ->
  Forall (fun c => is_query c = false) mods ->
  Forall (fun c => is_query c || is_cable_call c = true) tail ->
  line_run (hist ++ e :: mods ++ tail) = Some l -> (2 <= length (tl_alignment l))%nat ->
  fresh_line l0 -> tl_alignment l0 = tl_alignment l -> tl_origin l0 = tl_origin l ->
  structures_of l0 = structures_of l ->
  snd (PointsXyzLineStructures l) = snd (PointsXyzLineStructures l0) /\
  (exists pts, snd (PointsXyzLineStructures l) = Ok (Some pts) /\ length pts = length (structures_of l)) /\
  (forall i, snd (PointXyzLineStructure l i) = snd (PointXyzLineStructure l0 i)) /\
  (forall i j, snd (PointXyzLineStructureAttachment l i j) = snd (PointXyzLineStructureAttachment l0 i j)).
Proof.
  intros hist e mods tail l l0 HO He HM HT H H2 HF E1 E2 E3.
  destruct (structure_points_current2 hist e mods tail l HO He HM HT H H2) as (HI & HI2 & G).
  assert (SS : same_structures l l0) by (split; [|split]; auto).
  assert (A := good_answers ok OL l HI HI2 H2 G). cbn zeta in A. destruct A as (A1 & A2 & A3 & A4).
  assert (B := fresh_answers ok OL l H2 HI l0 HF SS). cbn zeta in B. destruct B as (B1 & B2 & B3).
  split; [congruence|]. split; [|split].
  - eexists. split; [exact A1|]. rewrite A2. unfold structures_of. rewrite map_length. auto.
  - intros i. rewrite A3, B2. auto.
  - intros i j. rewrite A4, B3. auto.
Qed.

Lemma alignment_answers : forall l l0, Inv2 l -> Inv2 l0 ->
  tl_alignment l0 = tl_alignment l -> tl_origin l0 = tl_origin l ->
  (forall v v0, snd (PointsXyzAlignment l) = Ok v -> snd (PointsXyzAlignment l0) = Ok v0 -> v = v0) /\
  (forall st v v0, snd (PointXyzAlignment l st) = Ok v -> snd (PointXyzAlignment l0 st) = Ok v0 -> v = v0).
Proof.
  intros l l0 H H0 E1 E2. split.
  - intros v v0 K K0. apply alignment_points_current in K; auto. apply alignment_points_current in K0; auto.
    congruence.
  - intros st v v0 K K0. apply alignment_point_current in K; auto. apply alignment_point_current in K0; auto.
    rewrite E1, E2 in K0. congruence.
Qed.

Lemma alignment_answers_two : forall l l0, reachable ok l -> reachable ok l0 ->
  (2 <= length (tl_alignment l))%nat -> tl_alignment l0 = tl_alignment l -> tl_origin l0 = tl_origin l ->
  snd (PointsXyzAlignment l) = snd (PointsXyzAlignment l0) /\
  (exists pts, snd (PointsXyzAlignment l) = Ok (Some pts) /\ length pts = length (tl_alignment l)) /\
  (forall st, snd (PointXyzAlignment l st) = snd (PointXyzAlignment l0 st)).
Proof.
  intros l l0 R R0 H2 E1 E2.
  assert (I1 := reachable_Inv ok OL l R). assert (I2 := reachable_Inv2 l R).
  assert (J1 := reachable_Inv ok OL l0 R0). assert (J2 := reachable_Inv2 l0 R0).
  assert (H2' : two_points l0) by (unfold two_points; rewrite E1; auto).
  assert (Q : snd (PointsXyzAlignment l) = Ok (Some (PointsAlignment (tl_origin l) (tl_alignment l)))).
  { unfold PointsXyzAlignment. destruct (query l None _) as [l' r] eqn:E.
    assert (K := query_two_points _ l None (fun l => Ok (Some (tl_points_alignment l))) I1 I2 H2).
    rewrite E in K. cbn [fst snd] in *. rewrite K. apply query_body in E as (_ & _ & E & _); auto. congruence. }
  assert (Q0 : snd (PointsXyzAlignment l0) = Ok (Some (PointsAlignment (tl_origin l) (tl_alignment l)))).
  { unfold PointsXyzAlignment. destruct (query l0 None _) as [l' r] eqn:E.
    assert (K := query_two_points _ l0 None (fun l => Ok (Some (tl_points_alignment l))) J1 J2 H2').
    rewrite E in K. cbn [fst snd] in *. rewrite K. apply query_body in E as (_ & _ & E & _); auto. congruence. }
  split; [congruence|]. split.
  - eexists. split; [exact Q|]. apply PointsAlignment_length.
  - intros st. unfold PointXyzAlignment.
    rewrite (query_two_points _ l _ _ I1 I2 H2), (query_two_points _ l0 _ _ J1 J2 H2').
    destruct (query l _ _) as [l' r] eqn:E. destruct (query l0 _ _) as [l0' r0] eqn:E0. cbn [fst].
    apply query_body in E as ((S & _) & _ & E & _); auto.
    apply query_body in E0 as ((S0 & _) & _ & E0 & _); auto. congruence.
Qed.
End P.
