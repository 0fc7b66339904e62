(** Proofs for C198: the order of adding line structures does not matter. *)
From Coq Require Import ZArith Bool List Lia Sorted Permutation.
From Verif Require Import Num NumFacts ModelBase ModelAlignment ModelLine SpecLine ListFacts ProofAlignment
  SpecTransmission ProofLine ProofLineInv ProofLineFacts ProofLineCoord ProofLineSafe ProofConn ProofLineCopy ProofLineContracts.
Import ListNotations.
Open Scope num_scope.

Section P.
Context {N : Num} (ok : N -> Prop) (OL : OrdLaws N ok) {P : Type}.
Implicit Types l : Line N P.
Implicit Types ss : list (LineStructure N).

Lemma add_on : forall l s, Inv ok l -> ok (ls_station s) -> on_alignment (tl_alignment l) (ls_station s) ->
  (forall s0, In s0 (structures_of l) -> (ls_station s =? ls_station s0) = false) ->
  exists l' k, AddLineStructure l s = (l', Ok k) /\ tl_alignment l' = tl_alignment l /\
    tl_line_cables l' = tl_line_cables l /\ Permutation (structures_of l') (s :: structures_of l).
Proof.
  intros l s HI Hs HA HD.
  assert (E : exists l' k, AddLineStructure l s = (l', Ok k)).
  { unfold AddLineStructure. change (tl_alignment (stale_structures l)) with (tl_alignment l).
    assert (V : exists v, IsValidStation (tl_alignment l) (ls_station s) = Ok v).
    { destruct HA as (f & b & Hf & Hb & _). apply front_nth in Hf. apply back_nth in Hb.
      unfold IsValidStation. rewrite Hf, Hb. cbn [obind]. eauto. }
    destruct V as [[|] ->]; [|eauto]. destruct (AddLineStructure_search _ _ _); eauto. }
  destruct E as (l' & k & E). exists l', k. split; auto.
  destruct (AddLineStructure_contract ok OL l s l' k HI Hs E) as (A & B & [(_ & _ & [Q|(s0 & Q1 & Q2)])|(id & I & _)]).
  - contradiction.
  - rewrite HD in Q2 by auto. discriminate.
  - split; auto. split; auto. unfold structures_of. destruct I as (l1 & l2 & E1 & E2 & _). rewrite E1, E2.
    rewrite !map_app. simpl. symmetry. apply Permutation_middle.
Qed.

(** No two structures have the same station. *)
Definition spread ss : Prop :=
  forall i j s t, i <> j -> nth_error ss i = Some s -> nth_error ss j = Some t ->
    (ls_station s =? ls_station t) = false.

Lemma spread_cons : forall s ss, spread (s :: ss) ->
  spread ss /\ (forall t, In t ss -> (ls_station s =? ls_station t) = false).
Proof.
  intros s ss H. split.
  - intros i j a b Hij Ha Hb. apply (H (S i) (S j)); auto.
  - intros t Ht. apply In_nth_error in Ht as [k Hk]. apply (H 0%nat (S k) s t); auto.
Qed.

Lemma spread_perm : forall ss ts, spread ss -> Permutation ss ts -> spread ts.
Proof.
  intros ss ts H HP. apply Permutation_nth_error in HP as (_ & f & Hf & Hn).
  intros i j a b Hij Ha Hb. rewrite Hn in Ha, Hb. apply (H (f i) (f j)); auto.
Qed.

Lemma eqb_swap : forall x y, ok x -> ok y -> (x =? y) = false -> (y =? x) = false.
Proof. intros x y Hx Hy H. rewrite (ol_eq _ _ OL) in * by auto. rewrite andb_comm. auto. Qed.

Definition adds ss : list (LineCall N P) := map CAddLineStructure ss.

Lemma run_adds : forall ss l, constructible ok l ->
  (forall s, In s ss -> ok (ls_station s) /\ slots_match s /\ on_alignment (tl_alignment l) (ls_station s)) ->
  spread ss -> (forall s t, In s ss -> In t (structures_of l) -> (ls_station s =? ls_station t) = false) ->
  exists l', line_run_from l (adds ss) = Some l' /\ constructible ok l' /\ tl_alignment l' = tl_alignment l /\
    tl_line_cables l' = tl_line_cables l /\ Permutation (structures_of l') (ss ++ structures_of l).
Proof.
  induction ss as [|s ss IH]; intros l C HS HP HD.
  - exists l. simpl. auto.
  - apply spread_cons in HP as [HP HX].
    destruct (HS s (or_introl eq_refl)) as (S1 & S2 & S3).
    destruct (add_on l s (constructible_Inv ok OL l C) S1 S3) as (l1 & k & E & A & B & Q).
    { intros t Ht. apply HD; [left|]; auto. }
    assert (C1 : constructible ok l1).
    { apply (constructible_call ok l (CAddLineStructure s) l1 (Ok tt) C); [split; auto| |discriminate].
      simpl. rewrite E. reflexivity. }
    destruct (IH l1 C1) as (l' & R1 & R2 & R3 & R4 & R5).
    + intros t Ht. rewrite A. apply HS. right; auto.
    + auto.
    + intros a b Ha Hb. apply (Permutation_in _ Q) in Hb as [<-|Hb]; [|apply HD; [right|]; auto].
      apply eqb_swap; auto. apply HS; right; auto.
    + exists l'. simpl. rewrite E. simpl. split; auto. split; auto. split; [congruence|]. split; [congruence|].
      rewrite R5, Q. symmetry. apply Permutation_middle.
Qed.

Lemma sorted_structs_unique : forall ss ts,
  Forall ok (map ls_station ss) -> Forall ok (map ls_station ts) ->
  StronglySorted lt (map ls_station ss) -> StronglySorted lt (map ls_station ts) ->
  Permutation ss ts -> ss = ts.
Proof.
  induction ss as [|p ss IH]; intros ts O1 O2 S1 S2 HP.
  - apply Permutation_nil in HP. auto.
  - destruct ts as [|q ts]; [symmetry in HP; apply Permutation_nil in HP; discriminate|].
    simpl in *. inversion O1; inversion O2; subst.
    apply SS_cons in S1 as [S1 L1]. apply SS_cons in S2 as [S2 L2].
    assert (E : p = q).
    { assert (A := Permutation_in p HP (or_introl eq_refl)).
      assert (B := Permutation_in q (Permutation_sym HP) (or_introl eq_refl)).
      destruct A as [A|A]; auto. destruct B as [B|B]; auto.
      assert (X := L1 (ls_station q) (in_map _ _ _ B)).
      assert (Y := L2 (ls_station p) (in_map _ _ _ A)).
      assert (Z := ol_trans _ _ OL (ls_station p) (ls_station q) (ls_station p) H1 H5 H1 X Y).
      rewrite (ol_irrefl _ _ OL) in Z; auto. discriminate. }
    subst q. f_equal. apply Permutation_cons_inv in HP. apply IH; auto.
Qed.

Lemma structs_sorted : forall l, constructible ok l ->
  Forall ok (map ls_station (structures_of l)) /\ StronglySorted lt (map ls_station (structures_of l)).
Proof.
  intros l C. apply (constructible_Inv ok OL) in C as (_ & (H1 & H2 & _) & _).
  unfold structures_of. rewrite map_map. auto.
Qed.

Lemma structures_any_order : forall l ss ts, constructible ok l ->
  (forall s, In s ss -> ok (ls_station s) /\ slots_match s /\ on_alignment (tl_alignment l) (ls_station s)) ->
  spread ss -> (forall s t, In s ss -> In t (structures_of l) -> (ls_station s =? ls_station t) = false) ->
  Permutation ss ts ->
  exists l1 l2, line_run_from l (adds ss) = Some l1 /\ line_run_from l (adds ts) = Some l2 /\
    structures_of l2 = structures_of l1 /\ tl_alignment l2 = tl_alignment l1 /\ tl_line_cables l2 = tl_line_cables l1 /\
    Permutation (structures_of l1) (ss ++ structures_of l) /\
    tl_alignment l1 = tl_alignment l /\ tl_line_cables l1 = tl_line_cables l.
Proof.
  intros l ss ts C HS HP HD HT.
  assert (IN : forall s, In s ts -> In s ss) by (intros s; apply Permutation_in; symmetry; exact HT).
  destruct (run_adds ss l C HS HP HD) as (l1 & A1 & A2 & A3 & A4 & A5).
  destruct (run_adds ts l C) as (l2 & B1 & B2 & B3 & B4 & B5); auto.
  { eapply spread_perm; eauto. }
  exists l1, l2. split; auto. split; auto. split; [|split; [congruence|split; [congruence|auto]]].
  destruct (structs_sorted l1 A2) as (X1 & X2). destruct (structs_sorted l2 B2) as (Y1 & Y2).
  apply sorted_structs_unique; auto. rewrite A5, B5. apply Permutation_app_tail. symmetry. exact HT.
Qed.

(** For the example. *)
Lemma spread_two : forall s t : LineStructure N,
  (ls_station s =? ls_station t) = false -> (ls_station t =? ls_station s) = false -> spread [s; t].
Proof.
  intros s t H1 H2 i j a b Hij Ha Hb.
  destruct i as [|[|[|i]]]; destruct j as [|[|[|j]]]; simpl in *; try discriminate; try congruence.
Qed.

Lemma on_alignment_bool : forall (ps : list (AlignmentPoint N)) x,
  match nth_error ps 0, nth_error ps (length ps - 1) with
  | Some f, Some b => (ap_station f <=? x) && (x <=? ap_station b)
  | _, _ => false
  end = true -> on_alignment ps x.
Proof.
  intros ps x H. unfold on_alignment.
  destruct (nth_error ps 0) as [f|]; [|discriminate]. destruct (nth_error ps (length ps - 1)) as [b|]; [|discriminate].
  apply andb_true_iff in H as [H1 H2]. eauto 6.
Qed.

Lemma new_bool : forall (s : LineStructure N) ts,
  forallb (fun t => negb (ls_station s =? ls_station t)) ts = true ->
  forall t, In t ts -> (ls_station s =? ls_station t) = false.
Proof. intros s ts H t Ht. rewrite forallb_forall in H. apply negb_true_iff. apply H. exact Ht. Qed.
End P.
