(** Proofs about objects of the elongation model: they follow their values. *)
From Coq Require Import ZArith Bool List Lia.
From Verif Require Import Num ModelBase ModelCable ModelPolynomial ModelThermal ModelElongation ModelPointed SpecPointed
  ProofElong ProofPointed.
Import ListNotations.
Open Scope num_scope.

Section Run.
Context {N : Num}.
Implicit Types m v : ElongModel N.
Implicit Types o : EObject N.

(** ** One call *)

Definition base o o' : Prop :=
  em_cable (eo_model o) = em_cable (eo_model o') /\ em_state (eo_model o) = em_state (eo_model o') /\
  em_stretch (eo_model o) = em_stretch (eo_model o') /\ em_upd_state (eo_model o) = em_upd_state (eo_model o') /\
  em_upd_stretch (eo_model o) = em_upd_stretch (eo_model o').
Definition ptrs o o' : Prop :=
  eo_stretch_core o = eo_stretch_core o' /\ eo_stretch_shell o = eo_stretch_shell o' /\
  eo_core_state o = eo_core_state o' /\ eo_core_stretch o = eo_core_stretch o' /\
  eo_shell_state o = eo_shell_state o' /\ eo_shell_stretch o = eo_shell_stretch o'.

Lemma base_refl : forall o, base o o. Proof. unfold base. tauto. Qed.
Lemma ptrs_refl : forall o, ptrs o o. Proof. unfold ptrs. tauto. Qed.
Lemma base_trans : forall o1 o2 o3, base o1 o2 -> base o2 o3 -> base o1 o3.
Proof. unfold base. intuition congruence. Qed.
Lemma ptrs_trans : forall o1 o2 o3, ptrs o1 o2 -> ptrs o2 o3 -> ptrs o1 o3.
Proof. unfold ptrs. intuition congruence. Qed.

Lemma wipe_refer : forall mem i o, wipe (eo_refer mem i o) = wipe (eo_model o).
Proof. intros. unfold eo_refer, wipe. destruct (eo_model o). reflexivity. Qed.

Section One.
Variable mem : EObjects N.
Variable i : Z.

Lemma read_state_same : forall o o' p, em_state (eo_model o) = em_state (eo_model o') ->
  read_state mem i o p = read_state mem i o' p.
Proof. intros o o' [| |s|j] H; try reflexivity. unfold read_state, eo_at. destruct (j =? i)%Z; cbn; congruence. Qed.
Lemma read_stretch_same : forall o o' p, em_stretch (eo_model o) = em_stretch (eo_model o') ->
  eo_stretch_core o = eo_stretch_core o' -> eo_stretch_shell o = eo_stretch_shell o' ->
  read_stretch mem i o p = read_stretch mem i o' p.
Proof.
  intros o o' [| |s|j|j|j] H1 H2 H3; try reflexivity; unfold read_stretch, eo_at; destruct (j =? i)%Z; cbn; congruence.
Qed.

Lemma refer_with : forall o m', still (eo_refer mem i o) m' -> eo_refer mem i (eo_with o m') = m'.
Proof.
  intros o m' (E1 & E2 & E3 & E4 & E5 & (C1 & C2 & C3) & (D1 & D2 & D3)).
  unfold eo_refer at 1. cbn [eo_with eo_model].
  rewrite !(read_state_same (eo_with o m') o), !(read_stretch_same (eo_with o m') o); auto.
  cbn [eo_with eo_core_state eo_core_stretch eo_shell_state eo_shell_stretch].
  unfold eo_refer, em_with_shell, em_with_core in C2, C3, D2, D3. cbn in C2, C3, D2, D3.
  rewrite C2, C3, D2, D3. destruct m' as [k s t c d l x y]; destruct c, d. reflexivity.
Qed.

Section On.
Variable a b : bool.

Definition Near (P1 P2 Q1 Q2 : Prop) o v : Prop := near P1 P2 Q1 Q2 (eo_refer mem i o) v.
Definition strong o v : Prop := alike a b (eo_refer mem i o) v.

Lemma Near_weaken : forall (P1 P2 Q1 Q2 P1' P2' Q1' Q2' : Prop) o v, Near P1 P2 Q1 Q2 o v ->
  (P1' -> P1) -> (P2' -> P2) -> (Q1' -> Q1) -> (Q2' -> Q2) -> Near P1' P2' Q1' Q2' o v.
Proof. unfold Near, near. intuition. Qed.

Lemma on_model : forall o, on a b (eo_model o) -> on a b (eo_refer mem i o).
Proof. intros o H. apply (on_wipe a b _ _ H). symmetry. apply wipe_refer. Qed.
Lemma on_base : forall o o', on a b (eo_model o) -> base o o' -> on a b (eo_model o').
Proof. intros o o' [H1 H2] (E & _). unfold on, em_core_on, em_shell_on in *. rewrite <- E. auto. Qed.

Lemma ask_sim : forall (A : Type) (f : ElongModel N -> outcome (A * ElongModel N)) o v,
  pure a b f -> on a b (eo_model o) -> strong o v ->
  orel (fun p q => fst p = fst q /\ strong (snd p) (snd q) /\ base o (snd p) /\ ptrs o (snd p)) (eo_ask mem i o f) (f v).
Proof.
  intros A f o v F O L. unfold eo_ask. specialize (F _ _ (on_model o O) L).
  destruct (f (eo_refer mem i o)) as [[x m']| |]; destruct (f v) as [[y v']| |]; cbn in *; try contradiction; auto.
  destruct F as (E & L' & S1 & S2). split; [exact E|]. split; [unfold strong; rewrite refer_with; auto|].
  split; [|unfold ptrs; cbn; tauto]. destruct S1 as (E1 & E2 & E3 & E4 & E5 & _). unfold base. cbn. auto.
Qed.

(** Setting pointers. *)
Lemma core_state_near : forall (P1 P2 Q1 Q2 : Prop) o v p s, Near P1 P2 Q1 Q2 o v -> read_state mem i o p = Some s ->
  Near True P2 Q1 Q2 (core_state_to o p) (em_with_core v (cm_set_state (em_core v) (Some s))).
Proof.
  intros P1 P2 Q1 Q2 o v p s (W & H1 & H2 & H3 & H4) R. rewrite wipe_refer in W. apply wipe_fields in W.
  destruct W as (W1 & W2 & W3 & W4 & W5 & W6 & W7 & W8). split; [|repeat split].
  - rewrite wipe_refer. apply fields_wipe; cbn; auto.
    unfold blank, cm_refer, cm_set_state in *. cbn. injection W7. congruence.
  - intros _. cbn. rewrite (read_state_same _ o) by reflexivity. exact R.
  - intros H. cbn. rewrite (read_stretch_same _ o) by reflexivity. exact (H2 H).
  - intros H. cbn. rewrite (read_state_same _ o) by reflexivity. exact (H3 H).
  - intros H. cbn. rewrite (read_stretch_same _ o) by reflexivity. exact (H4 H).
Qed.
Lemma shell_state_near : forall (P1 P2 Q1 Q2 : Prop) o v p s, Near P1 P2 Q1 Q2 o v -> read_state mem i o p = Some s ->
  Near P1 P2 True Q2 (shell_state_to o p) (em_with_shell v (cm_set_state (em_shell v) (Some s))).
Proof.
  intros P1 P2 Q1 Q2 o v p s (W & H1 & H2 & H3 & H4) R. rewrite wipe_refer in W. apply wipe_fields in W.
  destruct W as (W1 & W2 & W3 & W4 & W5 & W6 & W7 & W8). split; [|repeat split].
  - rewrite wipe_refer. apply fields_wipe; cbn; auto.
    unfold blank, cm_refer, cm_set_state in *. cbn. injection W8. congruence.
  - intros H. cbn. rewrite (read_state_same _ o) by reflexivity. exact (H1 H).
  - intros H. cbn. rewrite (read_stretch_same _ o) by reflexivity. exact (H2 H).
  - intros _. cbn. rewrite (read_state_same _ o) by reflexivity. exact R.
  - intros H. cbn. rewrite (read_stretch_same _ o) by reflexivity. exact (H4 H).
Qed.
Lemma core_stretch_near : forall (P1 P2 Q1 Q2 : Prop) o v p s, Near P1 P2 Q1 Q2 o v -> read_stretch mem i o p = Some s ->
  Near P1 True Q1 Q2 (core_stretch_to o p) (em_with_core v (cm_set_stretch (em_core v) (Some s))).
Proof.
  intros P1 P2 Q1 Q2 o v p s (W & H1 & H2 & H3 & H4) R. rewrite wipe_refer in W. apply wipe_fields in W.
  destruct W as (W1 & W2 & W3 & W4 & W5 & W6 & W7 & W8). split; [|repeat split].
  - rewrite wipe_refer. apply fields_wipe; cbn; auto.
    unfold blank, cm_refer, cm_set_stretch in *. cbn. injection W7. congruence.
  - intros H. cbn. rewrite (read_state_same _ o) by reflexivity. exact (H1 H).
  - intros _. cbn. rewrite (read_stretch_same _ o) by reflexivity. exact R.
  - intros H. cbn. rewrite (read_state_same _ o) by reflexivity. exact (H3 H).
  - intros H. cbn. rewrite (read_stretch_same _ o) by reflexivity. exact (H4 H).
Qed.
Lemma shell_stretch_near : forall (P1 P2 Q1 Q2 : Prop) o v p s, Near P1 P2 Q1 Q2 o v -> read_stretch mem i o p = Some s ->
  Near P1 P2 Q1 True (shell_stretch_to o p) (em_with_shell v (cm_set_stretch (em_shell v) (Some s))).
Proof.
  intros P1 P2 Q1 Q2 o v p s (W & H1 & H2 & H3 & H4) R. rewrite wipe_refer in W. apply wipe_fields in W.
  destruct W as (W1 & W2 & W3 & W4 & W5 & W6 & W7 & W8). split; [|repeat split].
  - rewrite wipe_refer. apply fields_wipe; cbn; auto.
    unfold blank, cm_refer, cm_set_stretch in *. cbn. injection W8. congruence.
  - intros H. cbn. rewrite (read_state_same _ o) by reflexivity. exact (H1 H).
  - intros H. cbn. rewrite (read_stretch_same _ o) by reflexivity. exact (H2 H).
  - intros H. cbn. rewrite (read_state_same _ o) by reflexivity. exact (H3 H).
  - intros _. cbn. rewrite (read_stretch_same _ o) by reflexivity. exact R.
Qed.

(** Writing a stretch member that no pointer in use refers to. *)
Lemma set_core_near : forall (P1 P2 Q1 Q2 : Prop) o v s, Near P1 P2 Q1 Q2 o v -> (Q2 -> eo_shell_stretch o = TpShell i) ->
  Near P1 False Q1 Q2 (set_stretch_core o s) v.
Proof.
  intros P1 P2 Q1 Q2 o v s (W & H1 & H2 & H3 & H4) K. split; [|repeat split].
  - rewrite wipe_refer in *. exact W.
  - intros H. cbn. rewrite (read_state_same _ o) by reflexivity. exact (H1 H).
  - intros [].
  - intros H. cbn. rewrite (read_state_same _ o) by reflexivity. exact (H3 H).
  - intros H. specialize (H4 H). cbn in *. rewrite (K H) in *. cbn in *. unfold eo_at in *. rewrite Z.eqb_refl in *. exact H4.
Qed.
Lemma set_shell_near : forall (P1 P2 Q1 Q2 : Prop) o v s, Near P1 P2 Q1 Q2 o v -> (P2 -> eo_core_stretch o = TpCore i) ->
  Near P1 P2 Q1 False (set_stretch_shell o s) v.
Proof.
  intros P1 P2 Q1 Q2 o v s (W & H1 & H2 & H3 & H4) K. split; [|repeat split].
  - rewrite wipe_refer in *. exact W.
  - intros H. cbn. rewrite (read_state_same _ o) by reflexivity. exact (H1 H).
  - intros H. specialize (H2 H). cbn in *. rewrite (K H) in *. cbn in *. unfold eo_at in *. rewrite Z.eqb_refl in *. exact H2.
  - intros H. cbn. rewrite (read_state_same _ o) by reflexivity. exact (H3 H).
  - intros [].
Qed.
Lemma return_near : forall (P1 P2 Q1 Q2 : Prop) o v, Near P1 P2 Q1 Q2 o v ->
  (P1 -> eo_core_state o = SpMember i) -> (P2 -> tp_return (eo_core_stretch o) = eo_core_stretch o) ->
  (Q1 -> eo_shell_state o = SpMember i) -> (Q2 -> tp_return (eo_shell_stretch o) = eo_shell_stretch o) ->
  Near P1 P2 Q1 Q2 (eo_return o) v.
Proof.
  intros P1 P2 Q1 Q2 o v (W & H1 & H2 & H3 & H4) K1 K2 K3 K4. split; [|repeat split].
  - rewrite wipe_refer in *. exact W.
  - intros H. specialize (H1 H). cbn in *. rewrite (K1 H) in *. cbn [sp_return]. rewrite (read_state_same _ o) by reflexivity. exact H1.
  - intros H. specialize (H2 H). cbn in *. rewrite (K2 H) in *. rewrite (read_stretch_same _ o) by reflexivity. exact H2.
  - intros H. specialize (H3 H). cbn in *. rewrite (K3 H) in *. cbn [sp_return]. rewrite (read_state_same _ o) by reflexivity. exact H3.
  - intros H. specialize (H4 H). cbn in *. rewrite (K4 H) in *. rewrite (read_stretch_same _ o) by reflexivity. exact H4.
Qed.

(** ** UpdateComponentsState *)

Lemma UpdateComponentsState_sim : forall o v p s, on a b (eo_model o) ->
  Near False (a = true) False (b = true) o v -> read_state mem i o p = Some s ->
  orel (fun o' v' => strong o' v' /\ base o o' /\
          eo_stretch_core o' = eo_stretch_core o /\ eo_stretch_shell o' = eo_stretch_shell o /\
          eo_core_stretch o' = eo_core_stretch o /\ eo_shell_stretch o' = eo_shell_stretch o /\
          (a = true -> eo_core_state o' = p) /\ (b = true -> eo_shell_state o' = p))
    (eo_UpdateComponentsState mem i o p) (UpdateComponentsState v s).
Proof.
  intros o v p s O L R. pose proof L as (W & _). rewrite wipe_refer in W. pose proof (on_wipe a b _ _ O W) as [V1 V2].
  unfold eo_UpdateComponentsState, UpdateComponentsState. destruct O as [O1 O2]. rewrite O1, V1. cbn [obind]. cbv zeta.
  set (o1 := if a then core_state_to o p else o).
  set (v1 := if a then em_with_core v (cm_set_state (em_core v) (Some s)) else v).
  assert (L1 : Near (a = true) (a = true) False (b = true) o1 v1).
  { unfold o1, v1. destruct a.
    - apply (Near_weaken True (true = true) False (b = true)); auto. apply (core_state_near False (true = true) False (b = true)); auto.
    - apply (Near_weaken False (false = true) False (b = true)); auto. discriminate. }
  assert (O1' : on a b (eo_model o1)). { unfold o1. destruct a; split; auto. }
  assert (B1 : base o o1). { unfold o1. destruct a; unfold base; cbn; tauto. }
  assert (V1' : em_shell_on v1 = Ok b). { unfold v1. destruct a; exact V2. }
  rewrite (proj2 O1'), V1'. cbn [obind].
  set (o2 := if b then shell_state_to o1 p else o1).
  set (v2 := if b then em_with_shell v1 (cm_set_state (em_shell v1) (Some s)) else v1).
  assert (L2 : strong o2 v2).
  { unfold strong, alike. unfold o2, v2. destruct b.
    - apply (Near_weaken (a = true) (a = true) True (true = true)); auto.
      apply (shell_state_near (a = true) (a = true) False (true = true)); auto.
      rewrite <- R. apply read_state_same. symmetry. apply B1.
    - apply (Near_weaken (a = true) (a = true) False (false = true)); auto. discriminate. }
  assert (O2' : on a b (eo_model o2)). { unfold o2. destruct b; exact O1'. }
  assert (B2 : base o o2). { unfold o2. destruct b; apply (base_trans _ _ _ B1); unfold base; cbn; tauto. }
  pose proof (ask_sim _ _ o2 v2 (UpdatePointsRegions_pure a b) O2' L2) as K.
  destruct (eo_ask mem i o2 _) as [[x o3]| |]; destruct (UpdatePointsRegions v2) as [v3| |]; cbn in *; try contradiction; auto.
  destruct K as (_ & L3 & B3 & (K1 & K2 & K3 & K4 & K5 & K6)).
  split; [exact L3|]. split; [exact (base_trans _ _ _ B2 B3)|].
  rewrite <- K1, <- K2, <- K3, <- K4, <- K5, <- K6. unfold o2, o1. destruct a, b; cbn; repeat split; auto; discriminate.
Qed.

(** ** UpdateComponentsStretch *)

Lemma UpdateComponentsStretch_sim : forall o v, on a b (eo_model o) -> wipe (eo_model o) = wipe v ->
  orel (fun o' v' => Near False (a = true) False (b = true) o' v' /\ base o o' /\
          (a = true -> eo_core_stretch o' = TpCore i) /\ (b = true -> eo_shell_stretch o' = TpShell i))
    (eo_UpdateComponentsStretch mem i o) (UpdateComponentsStretch v).
Proof.
  intros o v O W. pose proof (on_wipe a b _ _ O W) as V. pose proof (wipe_fields _ _ W) as (_ & _ & W3 & _).
  unfold eo_UpdateComponentsStretch, UpdateComponentsStretch. rewrite (proj1 O), (proj1 V). cbn [obind]. cbv zeta.
  rewrite <- W3. set (t := em_stretch (eo_model o)).
  set (o1 := if a then core_stretch_to (set_stretch_core o (ss_with_load t #0)) (TpCore i) else o).
  set (v1 := if a then em_with_core v (cm_set_stretch (em_core v) (Some (ss_with_load t #0))) else v).
  assert (L0 : Near False False False False o v). { split; [rewrite wipe_refer; exact W|tauto]. }
  assert (self : (i =? i)%Z = true) by apply Z.eqb_refl.
  assert (L1 : Near False (a = true) False False o1 v1).
  { unfold o1, v1. destruct a.
    - apply (Near_weaken False True False False); auto. apply (core_stretch_near False False False False).
      + apply (set_core_near False False False False); auto. tauto.
      + cbn. unfold eo_at. rewrite self. reflexivity.
    - apply (Near_weaken False False False False); auto. discriminate. }
  assert (B1 : base o o1). { unfold o1. destruct a; unfold base; cbn; tauto. }
  assert (O1 : on a b (eo_model o1)) by exact (on_base _ _ O B1).
  assert (V1 : on a b v1). { pose proof L1 as (W1 & _). rewrite wipe_refer in W1. exact (on_wipe a b _ _ O1 W1). }
  rewrite (proj2 O1), (proj2 V1). cbn [obind].
  assert (T1 : em_stretch (eo_model o1) = t). { symmetry. apply B1. }
  assert (T1' : em_stretch v1 = t). { pose proof L1 as (W1 & _). rewrite wipe_refer in W1. apply wipe_fields in W1. destruct W1 as (_ & _ & W1 & _). congruence. }
  rewrite T1.
  set (o2 := if b then shell_stretch_to (set_stretch_shell o1 (ss_with_load t #0)) (TpShell i) else o1).
  set (v2 := if b then em_with_shell v1 (cm_set_stretch (em_shell v1) (Some (ss_with_load t #0))) else v1).
  assert (C1 : a = true -> eo_core_stretch o1 = TpCore i). { unfold o1. intros ->. reflexivity. }
  assert (L2 : Near False (a = true) False (b = true) o2 v2).
  { unfold o2, v2. destruct b.
    - apply (Near_weaken False (a = true) False True); auto. apply (shell_stretch_near False (a = true) False False).
      + apply (set_shell_near False (a = true) False False); auto.
      + cbn. unfold eo_at. rewrite self. reflexivity.
    - apply (Near_weaken False (a = true) False False); auto. discriminate. }
  assert (B2 : base o o2). { unfold o2. destruct b; apply (base_trans _ _ _ B1); unfold base; cbn; tauto. }
  assert (O2 : on a b (eo_model o2)) by exact (on_base _ _ O B2).
  assert (C2 : a = true -> eo_core_stretch o2 = TpCore i). { unfold o2. intros H. destruct b; exact (C1 H). }
  assert (D2 : b = true -> eo_shell_stretch o2 = TpShell i). { unfold o2. intros ->. reflexivity. }
  assert (SC : a = true -> ss_temperature (eo_stretch_core o2) = ss_temperature t /\ ss_type (eo_stretch_core o2) = ss_type t).
  { unfold o2, o1. intros ->. destruct b; cbn; auto. }
  assert (SS : b = true -> ss_temperature (eo_stretch_shell o2) = ss_temperature t /\ ss_type (eo_stretch_shell o2) = ss_type t).
  { unfold o2. intros ->. cbn; auto. }
  assert (T2 : em_stretch (eo_model o2) = t). { symmetry. apply B2. }
  assert (T2' : em_stretch v2 = t). { pose proof L2 as (W2 & _). rewrite wipe_refer in W2. apply wipe_fields in W2. destruct W2 as (_ & _ & W2 & _). congruence. }
  rewrite T2, T2'. destruct (ss_load t =? #0).
  { cbn. auto. }
  set (st := mkCableState (ss_temperature t) (ss_type t)).
  eapply orel_bind; [exact (UpdateComponentsState_sim o2 v2 (SpLocal st) st O2 L2 eq_refl)|].
  intros o3 v3 (L3 & B3 & E3 & E3' & F3 & F3' & _).
  assert (O3 : on a b (eo_model o3)) by exact (on_base _ _ O2 B3).
  assert (T3' : em_stretch v3 = t). { pose proof L3 as (W2 & _). rewrite wipe_refer in W2. apply wipe_fields in W2. destruct W2 as (_ & _ & W2 & _). destruct B3 as (_ & _ & B3 & _). congruence. }
  rewrite T3'.
  eapply orel_bind; [exact (ask_sim _ _ o3 v3 (StrainCombined_pure a b (ss_load t)) O3 L3)|].
  intros [x o4] [y v4] (E & L4 & B4 & P4). cbn in E, L4, B4, P4. subst y.
  assert (O4 : on a b (eo_model o4)) by exact (on_base _ _ O3 B4).
  assert (BB4 : base o o4) by exact (base_trans _ _ _ B2 (base_trans _ _ _ B3 B4)).
  assert (C4 : a = true -> eo_core_stretch o4 = TpCore i). { intros H. destruct P4 as (_ & _ & _ & P & _). rewrite <- P, F3. auto. }
  assert (D4 : b = true -> eo_shell_stretch o4 = TpShell i). { intros H. destruct P4 as (_ & _ & _ & _ & _ & P). rewrite <- P, F3'. auto. }
  assert (SC4 : a = true -> forall y, ss_with_load (eo_stretch_core o4) y = ss_with_load t y).
  { intros H y. destruct P4 as (P & _). rewrite <- P, E3. unfold ss_with_load. destruct (SC H) as [-> ->]. reflexivity. }
  assert (SS4 : b = true -> forall y, ss_with_load (eo_stretch_shell o4) y = ss_with_load t y).
  { intros H y. destruct P4 as (_ & P & _). rewrite <- P, E3'. unfold ss_with_load. destruct (SS H) as [-> ->]. reflexivity. }
  assert (T4' : em_stretch v4 = t). { pose proof L4 as (W2 & _). rewrite wipe_refer in W2. apply wipe_fields in W2. destruct W2 as (_ & _ & W2 & _). destruct BB4 as (_ & _ & B & _). unfold t. congruence. }
  eapply (orel_bind _ _ _ _ (fun o5 v5 => strong o5 v5 /\ base o o5 /\
     (a = true -> eo_core_stretch o5 = TpCore i) /\ (b = true -> eo_shell_stretch o5 = TpShell i) /\
     (b = true -> forall y, ss_with_load (eo_stretch_shell o5) y = ss_with_load t y))).
  { assert (Da : a = true \/ a = false) by (destruct a; auto). destruct Da as [Ea|Ea].
    - rewrite Ea at 1 2. eapply orel_bind; [exact (ask_sim _ _ o4 v4 (LoadCore_pure a b x) O4 L4)|].
      intros [y o5] [y' v5] (E & L5 & B5 & P5). cbn in E, L5, B5, P5. subst y'.
      assert (T5' : em_stretch v5 = t). { pose proof L5 as (W2 & _). rewrite wipe_refer in W2. apply wipe_fields in W2. destruct W2 as (_ & _ & W2 & _). destruct B5 as (_ & _ & B & _). destruct BB4 as (_ & _ & B' & _). unfold t. congruence. }
      rewrite T5'. cbn [orel]. destruct P5 as (Q1 & Q2 & Q3 & Q4 & Q5 & Q6).
      split; [|split; [|split; [auto|split; [|]]]].
      + unfold strong, alike. apply (Near_weaken (a = true) True (b = true) (b = true)); auto.
        apply (core_stretch_near (a = true) False (b = true) (b = true)).
        * apply (set_core_near (a = true) (a = true) (b = true) (b = true)); auto. intros H. rewrite <- Q6. auto.
        * cbn. unfold eo_at. rewrite self. cbn. rewrite <- Q1. rewrite SC4; auto.
      + apply (base_trans _ _ _ BB4). apply (base_trans _ _ _ B5). unfold base; cbn; tauto.
      + intros H; cbn; rewrite <- Q6; auto.
      + intros H z; cbn; rewrite <- Q2; auto.
    - rewrite Ea at 1 2. cbn. auto. }
  intros o5 v5 (L5 & B5 & C5 & D5 & SS5).
  assert (O5 : on a b (eo_model o5)) by exact (on_base _ _ O B5).
  assert (T5 : em_stretch v5 = t). { pose proof L5 as (W2 & _). rewrite wipe_refer in W2. apply wipe_fields in W2. destruct W2 as (_ & _ & W2 & _). destruct B5 as (_ & _ & B & _). unfold t. congruence. }
  assert (RT : forall o6 v6, strong o6 v6 -> base o o6 -> (a = true -> eo_core_stretch o6 = TpCore i) -> (b = true -> eo_shell_stretch o6 = TpShell i) ->
    Near False (a = true) False (b = true) (eo_return o6) v6 /\ base o (eo_return o6) /\
    (a = true -> eo_core_stretch (eo_return o6) = TpCore i) /\ (b = true -> eo_shell_stretch (eo_return o6) = TpShell i)).
  { intros o6 v6 L6 B6 C6 D6. split; [|split; [|split]].
    - apply return_near; try tauto.
      + apply (Near_weaken (a = true) (a = true) (b = true) (b = true)); auto; tauto.
      + intros H. rewrite (C6 H). auto.
      + intros H. rewrite (D6 H). auto.
    - apply (base_trans _ _ _ B6). unfold base; cbn; tauto.
    - intros H. cbn. rewrite (C6 H). reflexivity.
    - intros H. cbn. rewrite (D6 H). reflexivity. }
  assert (Db : b = true \/ b = false) by (destruct b; auto). destruct Db as [Eb|Eb].
  - rewrite Eb at 1 2.
    pose proof (ask_sim _ _ o5 v5 (LoadShell_pure a b x) O5 L5) as K.
    destruct (eo_ask mem i o5 _) as [[y o6]| |]; destruct (LoadShell v5 x) as [[y' v6]| |]; cbn [orel] in K; try contradiction;
      cbn [obind orel]; auto.
    destruct K as (E & L6 & B6 & P6). cbn in E, L6, B6, P6. subst y'.
    assert (T6' : em_stretch v6 = t). { pose proof L6 as (W2 & _). rewrite wipe_refer in W2. apply wipe_fields in W2. destruct W2 as (_ & _ & W2 & _). destruct B5 as (_ & _ & B & _). destruct B6 as (_ & _ & B' & _). unfold t. congruence. }
    rewrite T6'. destruct P6 as (Q1 & Q2 & Q3 & Q4 & Q5 & Q6). apply RT.
    + unfold strong, alike. apply (Near_weaken (a = true) (a = true) (b = true) True); auto.
      apply (shell_stretch_near (a = true) (a = true) (b = true) False).
      * apply (set_shell_near (a = true) (a = true) (b = true) (b = true)); auto. intros H. rewrite <- Q4. auto.
      * cbn. unfold eo_at. rewrite self. cbn. rewrite <- Q2. rewrite SS5; auto.
    + apply (base_trans _ _ _ B5). apply (base_trans _ _ _ B6). unfold base; cbn; tauto.
    + intros H. cbn. rewrite <- Q4. auto.
    + intros H. reflexivity.
  - rewrite Eb at 1 2. cbn [obind orel]. apply RT; auto.
Qed.
End On.
End One.

(** ** What holds between calls *)

Definition own_state (i : Z) (p : StatePtr N) : Prop := p = SpMember i.
Definition own_stretch (i : Z) (p : StretchPtr N) : Prop := p = TpCore i \/ p = TpShell i \/ p = TpCable i.

Lemma own_read_state : forall mem i o p, own_state i p -> read_state mem i o p = Some (em_state (eo_model o)).
Proof. intros mem i o p ->. cbn. unfold eo_at. rewrite Z.eqb_refl. reflexivity. Qed.
Lemma own_read_stretch : forall mem mem' i o p, own_stretch i p ->
  read_stretch mem i o p = read_stretch mem' i o p /\ read_stretch mem i o p <> None.
Proof. intros mem mem' i o p [->|[->| ->]]; cbn; unfold eo_at; rewrite Z.eqb_refl; cbn; split; try reflexivity; discriminate. Qed.

Lemma Near_mem : forall mem mem' i (P1 P2 Q1 Q2 : Prop) o v, Near mem i P1 P2 Q1 Q2 o v ->
  (P1 -> own_state i (eo_core_state o)) -> (P2 -> own_stretch i (eo_core_stretch o)) ->
  (Q1 -> own_state i (eo_shell_state o)) -> (Q2 -> own_stretch i (eo_shell_stretch o)) ->
  Near mem' i P1 P2 Q1 Q2 o v.
Proof.
  intros mem mem' i P1 P2 Q1 Q2 o v (W & H1 & H2 & H3 & H4) K1 K2 K3 K4. split; [|repeat split].
  - rewrite wipe_refer in *. exact W.
  - intros H. specialize (H1 H). cbn in *. rewrite (own_read_state mem _ _ _ (K1 H)) in H1. rewrite (own_read_state mem' _ _ _ (K1 H)). exact H1.
  - intros H. specialize (H2 H). cbn in *. rewrite (proj1 (own_read_stretch mem' mem _ _ _ (K2 H))). exact H2.
  - intros H. specialize (H3 H). cbn in *. rewrite (own_read_state mem _ _ _ (K3 H)) in H3. rewrite (own_read_state mem' _ _ _ (K3 H)). exact H3.
  - intros H. specialize (H4 H). cbn in *. rewrite (proj1 (own_read_stretch mem' mem _ _ _ (K4 H))). exact H4.
Qed.

(** The stretch pointers, or all pointers, are settled. *)
Definition stretch_settled (i : Z) (a b : bool) o v : Prop :=
  (forall mem, Near mem i False (a = true) False (b = true) o v) /\
  (a = true -> own_stretch i (eo_core_stretch o)) /\ (b = true -> own_stretch i (eo_shell_stretch o)).
Definition settled (i : Z) (a b : bool) o v : Prop :=
  (forall mem, strong mem i a b o v) /\
  (a = true -> own_stretch i (eo_core_stretch o)) /\ (b = true -> own_stretch i (eo_shell_stretch o)) /\
  (a = true -> own_state i (eo_core_state o)) /\ (b = true -> own_state i (eo_shell_state o)).

Definition inv (i : Z) o v : Prop :=
  wipe (eo_model o) = wipe v /\
  (em_upd_stretch v = true -> exists a b, on a b v /\ stretch_settled i a b o v) /\
  (em_upd_state v = true -> em_upd_stretch v = true /\ exists a b, on a b v /\ settled i a b o v).

Lemma inv_cleared : forall i o v, wipe (eo_model o) = wipe v -> em_upd_stretch v = false -> em_upd_state v = false -> inv i o v.
Proof. intros i o v W E1 E2. split; [exact W|]. rewrite E1, E2. split; discriminate. Qed.

Lemma settled_stretch : forall i a b o v, settled i a b o v -> stretch_settled i a b o v.
Proof.
  intros i a b o v (L & C & D & _). split; [|auto]. intros mem.
  apply (Near_weaken mem i (a = true) (a = true) (b = true) (b = true)); auto; try tauto. apply L.
Qed.
Lemma settled_wipe : forall i a b o v, settled i a b o v -> wipe (eo_model o) = wipe v.
Proof. intros i a b o v (L & _). destruct (L (fun _ => None)) as (W & _). rewrite wipe_refer in W. exact W. Qed.
Lemma settled_inv : forall i a b o v, settled i a b o v -> on a b v -> em_upd_stretch v = true -> inv i o v.
Proof.
  intros i a b o v S O E. split; [exact (settled_wipe _ _ _ _ _ S)|]. split.
  - intros _. exists a, b. split; [exact O|apply settled_stretch, S].
  - intros _. split; [exact E|]. exists a, b. auto.
Qed.

Lemma flags_near : forall mem i (P1 P2 Q1 Q2 : Prop) o v x y, Near mem i P1 P2 Q1 Q2 o v ->
  Near mem i P1 P2 Q1 Q2 (eo_with_flags o x y) (em_with_flags v x y).
Proof.
  intros mem i P1 P2 Q1 Q2 o v x y (W & H1 & H2 & H3 & H4). rewrite wipe_refer in W. apply wipe_fields in W.
  destruct W as (W1 & W2 & W3 & W4 & W5 & W6 & W7 & W8). split; [|repeat split].
  - rewrite wipe_refer. apply fields_wipe; cbn; auto.
  - intros H. cbn. rewrite (read_state_same _ _ _ o) by reflexivity. exact (H1 H).
  - intros H. cbn. rewrite (read_stretch_same _ _ _ o) by reflexivity. exact (H2 H).
  - intros H. cbn. rewrite (read_state_same _ _ _ o) by reflexivity. exact (H3 H).
  - intros H. cbn. rewrite (read_stretch_same _ _ _ o) by reflexivity. exact (H4 H).
Qed.

(** ** Update *)

Lemma no_core : forall v, em_core_on v = UB \/ exists a, em_core_on v = Ok a.
Proof.
  intros v. unfold em_core_on, sg_core_on, sk_IsEnabled. destruct (em_cable v) as [c|]; cbn; auto.
  destruct (sk_enabled (sg_core c)); cbn; eauto.
Qed.
Lemma no_shell : forall v, em_shell_on v = UB \/ exists a, em_shell_on v = Ok a.
Proof.
  intros v. unfold em_shell_on, sg_shell_on, sk_IsEnabled. destruct (em_cable v) as [c|]; cbn; auto.
  destruct (sk_enabled (sg_shell c)); cbn; eauto.
Qed.
Lemma on_or_not : forall v, (exists a b, on a b v) \/ em_core_on v = UB \/ (exists a, em_core_on v = Ok a) /\ em_shell_on v = UB.
Proof.
  intros v. destruct (no_core v) as [H|[a H]]; auto. destruct (no_shell v) as [K|[b K]]; eauto.
  left. exists a, b. split; auto.
Qed.

Lemma Update_sim : forall mem i o v, inv i o v ->
  orel (fun o' v' => exists a b, on a b v' /\ settled i a b o' v' /\ em_upd_stretch v' = true /\ em_upd_state v' = true)
    (eo_Update mem i o) (em_Update v).
Proof.
  intros mem i o v (W & T & U). pose proof (wipe_fields _ _ W) as (W1 & W2 & W3 & _ & W5 & W6 & _).
  assert (EC : em_core_on (eo_model o) = em_core_on v) by (unfold em_core_on; rewrite W1; reflexivity).
  assert (ES : em_shell_on (eo_model o) = em_shell_on v) by (unfold em_shell_on; rewrite W1; reflexivity).
  unfold eo_Update, em_Update. rewrite W6.
  (* the stretch half *)
  assert (H : orel (fun o' v' => exists a b, on a b v' /\ stretch_settled i a b o' v' /\ em_upd_stretch v' = true /\
       (em_upd_state v' = true -> settled i a b o' v'))
     (if em_upd_stretch v then Ok o else do o <- eo_UpdateComponentsStretch mem i o; Ok (eo_with_flags o (em_upd_state (eo_model o)) true))
     (if em_upd_stretch v then Ok v else do m <- UpdateComponentsStretch v; Ok (em_with_flags m (em_upd_state m) true))).
  { destruct (em_upd_stretch v) eqn:Et.
    - cbn. destruct (T eq_refl) as (a & b & O & S). exists a, b. split; [exact O|]. split; [exact S|]. split; [exact Et|].
      intros E. destruct (U E) as (_ & a' & b' & O' & S'). destruct O as [O1 O2], O' as [O1' O2'].
      assert (a' = a) by congruence. assert (b' = b) by congruence. subst. exact S'.
    - destruct (on_or_not v) as [(a & b & O)|[N1|[[a N1] N2]]].
      + assert (Oo : on a b (eo_model o)) by (split; [rewrite EC|rewrite ES]; apply O).
        eapply orel_bind; [exact (UpdateComponentsStretch_sim mem i a b o v Oo W)|].
        intros o1 v1 (L & B & C & D). cbn.
        pose proof L as (W' & _). rewrite wipe_refer in W'.
        pose proof (wipe_fields _ _ W') as (_ & _ & _ & _ & W5' & _). rewrite W5'.
        assert (O1 : on a b v1) by exact (on_wipe a b _ _ (on_base _ _ _ _ Oo B) W').
        exists a, b. split; [exact O1|]. split; [|split; [reflexivity|]].
        * split; [|split; [intros H; left; exact (C H)|intros H; right; left; exact (D H)]].
          intros mem'. apply (Near_mem mem); [apply flags_near, L|tauto|intros H; left; exact (C H)|tauto|intros H; right; left; exact (D H)].
        * cbn. intros E. destruct B as (_ & _ & _ & B4 & _).
          assert (E' : em_upd_state v = true) by congruence. destruct (U E') as (E2 & _). congruence.
      + unfold eo_UpdateComponentsStretch, UpdateComponentsStretch. rewrite EC, N1. exact I.
      + unfold eo_UpdateComponentsStretch, UpdateComponentsStretch. rewrite EC, N1. cbn [obind]. cbv zeta.
        assert (K1 : em_shell_on (eo_model (if a then core_stretch_to (set_stretch_core o (ss_with_load (em_stretch (eo_model o)) #0)) (TpCore i) else o)) = UB).
        { destruct a; [unfold em_shell_on; cbn; fold (em_shell_on (eo_model o))|]; rewrite ES; exact N2. }
        assert (K2 : em_shell_on (if a then em_with_core v (cm_set_stretch (em_core v) (Some (ss_with_load (em_stretch v) #0))) else v) = UB).
        { destruct a; [unfold em_shell_on; cbn; fold (em_shell_on v)|]; exact N2. }
        rewrite K1, K2. exact I. }
  eapply orel_bind; [exact H|]. clear H.
  intros o1 v1 (a & b & O & (L & C & D) & Et & K).
  pose proof (L mem) as (W' & _). rewrite wipe_refer in W'. pose proof (wipe_fields _ _ W') as (X1 & X2 & _ & _ & X5 & X6 & _).
  rewrite X5. destruct (em_upd_state v1) eqn:Eu.
  { cbn. exists a, b. auto. }
  assert (Oo : on a b (eo_model o1)) by exact (on_wipe a b _ _ O (eq_sym W')).
  assert (R : read_state mem i o1 (SpMember i) = Some (em_state v1)).
  { rewrite (own_read_state mem i o1 _ eq_refl), X2. reflexivity. }
  eapply orel_bind; [exact (UpdateComponentsState_sim mem i a b o1 v1 (SpMember i) _ Oo (L mem) R)|].
  intros o2 v2 (L2 & B2 & P1 & P2 & P3 & P4 & P5 & P6). cbn.
  pose proof L2 as (W2' & _). rewrite wipe_refer in W2'. pose proof (wipe_fields _ _ W2') as (_ & _ & _ & _ & _ & Y6 & _).
  rewrite Y6.
  assert (O2 : on a b v2) by exact (on_wipe a b _ _ (on_base _ _ _ _ Oo B2) W2').
  assert (E2 : em_upd_stretch v2 = true). { destruct B2 as (_ & _ & _ & _ & B). congruence. }
  exists a, b. split; [exact O2|]. split; [|split; [exact E2|reflexivity]].
  assert (C' : a = true -> own_stretch i (eo_core_stretch o2)) by (intros H; rewrite P3; auto).
  assert (D' : b = true -> own_stretch i (eo_shell_stretch o2)) by (intros H; rewrite P4; auto).
  split; [|split; [exact C'|split; [exact D'|split; [exact P5|exact P6]]]].
  intros mem'. apply (Near_mem mem); auto. apply flags_near. exact L2.
Qed.

(** ** Queries and Validate of a settled object *)

Lemma settled_ask : forall mem i a b (A : Type) (f : ElongModel N -> outcome (A * ElongModel N)) o v,
  pure a b f -> on a b v -> settled i a b o v ->
  orel (fun p q => fst p = fst q /\ on a b (snd q) /\ settled i a b (snd p) (snd q) /\
          em_upd_stretch (snd q) = em_upd_stretch v /\ em_upd_state (snd q) = em_upd_state v) (eo_ask mem i o f) (f v).
Proof.
  intros mem i a b A f o v F O S. pose proof (settled_wipe _ _ _ _ _ S) as W. destruct S as (L & C & D & C' & D').
  assert (Oo : on a b (eo_model o)) by exact (on_wipe a b _ _ O (eq_sym W)).
  eapply orel_mono; [exact (ask_sim mem i a b _ f o v F Oo (L mem))|].
  intros [x o1] [y v1] (E & L1 & B1 & (Q1 & Q2 & Q3 & Q4 & Q5 & Q6)). cbn in *.
  pose proof L1 as (W1 & _). rewrite wipe_refer in W1.
  pose proof (wipe_fields _ _ W) as (_ & _ & _ & _ & X5 & X6 & _). pose proof (wipe_fields _ _ W1) as (_ & _ & _ & _ & Y5 & Y6 & _).
  split; [exact E|]. split; [exact (on_wipe a b _ _ (on_base _ _ _ _ Oo B1) W1)|].
  destruct B1 as (_ & _ & _ & B4 & B5). split; [|split; congruence].
  rewrite Q3, Q5 in *. rewrite Q4, Q6 in *.
  split; [|auto]. intros mem'. apply (Near_mem mem); auto.
Qed.

Lemma with_core_eta : forall m, em_with_core m (em_core m) = m. Proof. intros []; reflexivity. Qed.
Lemma with_shell_eta : forall m, em_with_shell m (em_shell m) = m. Proof. intros []; reflexivity. Qed.

Lemma core_valid_pure : forall w a b,
  pure a b (fun m => do (v, c) <- component_model_valid w a (em_core m); Ok (v, em_with_core m c)).
Proof.
  intros w a b. destruct a.
  - apply pure_core; auto. intros c x d. apply Validate_still.
  - apply (pure_ext _ _ _ _ (fun m => Ok (true, m))). { intros m _. cbn. rewrite with_core_eta. reflexivity. } apply pure_ret.
Qed.
Lemma shell_valid_pure : forall w a b,
  pure a b (fun m => do (v, c) <- component_model_valid w b (em_shell m); Ok (v, em_with_shell m c)).
Proof.
  intros w a b. destruct b.
  - apply pure_shell; auto. intros c x d. apply Validate_still.
  - apply (pure_ext _ _ _ _ (fun m => Ok (true, m))). { intros m _. cbn. rewrite with_shell_eta. reflexivity. } apply pure_ret.
Qed.

Lemma own_defined : forall mem i o p q, own_state i p -> own_stretch i q -> pointers_defined mem i o p q = true.
Proof.
  intros mem i o p q -> [->|[->| ->]]; unfold pointers_defined; cbn; unfold eo_at; rewrite Z.eqb_refl; reflexivity.
Qed.

Definition passed (i : Z) (a b : bool) {A : Type} (p : A * EObject N) (q : A * ElongModel N) : Prop :=
  fst p = fst q /\ on a b (snd q) /\ settled i a b (snd p) (snd q) /\ em_upd_stretch (snd q) = true /\ em_upd_state (snd q) = true.

Lemma comp_base : forall c d : CompModel N, blank c = blank d -> cm_base c = cm_base d.
Proof. intros c d H. unfold cm_base. unfold blank, cm_refer in H. injection H as -> _ _ _ _ _ _ _ _ _. reflexivity. Qed.

Lemma limit_sim : forall mem i a b w o v, on a b v -> settled i a b o v -> em_upd_stretch v = true -> em_upd_state v = true ->
  orel (passed i a b) (eo_ValidateLimit mem i w o) (ValidateComponentsStrainLimit w v).
Proof.
  intros mem i a b w o v O S Et Eu. unfold eo_ValidateLimit, ValidateComponentsStrainLimit. destruct w.
  2: { cbn. split; auto. }
  pose proof (settled_wipe _ _ _ _ _ S) as W. pose proof (wipe_fields _ _ W) as (W1 & _).
  assert (Oo : on a b (eo_model o)) by exact (on_wipe a b _ _ O (eq_sym W)).
  rewrite W1. destruct (deref (em_cable v)) as [k| |]; cbn [obind orel]; auto.
  destruct (deref (sg_base k)) as [bb| |]; cbn [obind orel]; auto.
  destruct (settled_stretch _ _ _ _ _ S) as (L & C & D).
  eapply orel_bind; [exact (UpdateComponentsState_sim mem i a b o v (SpLocal (mkCableState (cb_temperature bb) PTLoadStrain)) _ Oo (L mem) eq_refl)|].
  intros o1 v1 (L1 & B1 & _ & _ & P3 & P4 & _).
  assert (O1 : on a b (eo_model o1)) by exact (on_base _ _ _ _ Oo B1).
  eapply orel_bind; [exact (ask_sim mem i a b _ _ o1 v1 (StrainCombined_pure a b (cb_strength bb)) O1 L1)|].
  intros [x o2] [x' v2] (E & L2 & B2 & Q2). cbn in E, L2, B2, Q2. subst x'.
  assert (O2 : on a b (eo_model o2)) by exact (on_base _ _ _ _ O1 B2).
  pose proof L2 as (W2 & _). rewrite wipe_refer in W2.
  assert (V2 : on a b v2) by exact (on_wipe a b _ _ O2 W2).
  rewrite (proj1 O2), (proj1 V2). cbn [obind].
  pose proof (wipe_fields _ _ W2) as (_ & X2 & _ & _ & _ & _ & X7 & X8).
  rewrite (comp_base _ _ X7).
  eapply (orel_bind _ _ _ _ (fun p q => fst p = fst q /\ strong mem i a b (snd p) (snd q) /\ base o2 (snd p) /\ ptrs o2 (snd p))).
  { unfold eo_limit_valid, limit_valid. destruct a eqn:Ea; [|cbn; split; [reflexivity|split; [exact L2|split; [apply base_refl|apply ptrs_refl]]]].
    destruct (cm_base (em_core v2)) as [c| |]; cbn [obind orel]; auto. rewrite X2.
    destruct (limit_of c _) as [l| |]; cbn [obind orel]; auto.
    eapply orel_bind; [exact (ask_sim mem i true b _ _ o2 v2 (StrainCore_pure true b l) O2 L2)|].
    intros [z o3] [z' v3] (E & L3 & B3 & Q3). cbn in *. subst z'. auto. }
  intros [r1 o3] [r1' v3] (E & L3 & B3 & Q3). cbn in E, L3, B3, Q3. subst r1'.
  assert (O3 : on a b (eo_model o3)) by exact (on_base _ _ _ _ O2 B3).
  pose proof L3 as (W3 & _). rewrite wipe_refer in W3.
  assert (V3 : on a b v3) by exact (on_wipe a b _ _ O3 W3).
  rewrite (proj2 O3), (proj2 V3). cbn [obind].
  pose proof (wipe_fields _ _ W3) as (_ & Y2 & _ & _ & _ & _ & Y7 & Y8).
  rewrite (comp_base _ _ Y8).
  eapply (orel_bind _ _ _ _ (fun p q => fst p = fst q /\ strong mem i a b (snd p) (snd q) /\ base o3 (snd p) /\ ptrs o3 (snd p))).
  { unfold eo_limit_valid, limit_valid. destruct b eqn:Eb; [|cbn; split; [reflexivity|split; [exact L3|split; [apply base_refl|apply ptrs_refl]]]].
    destruct (cm_base (em_shell v3)) as [c| |]; cbn [obind orel]; auto. rewrite Y2.
    destruct (limit_of c _) as [l| |]; cbn [obind orel]; auto.
    eapply orel_bind; [exact (ask_sim mem i a true _ _ o3 v3 (StrainShell_pure a true l) O3 L3)|].
    intros [z o4] [z' v4] (E & L4 & B4 & Q4). cbn in *. subst z'. auto. }
  intros [r2 o4] [r2' v4] (E & L4 & B4 & Q4). cbn in E, L4, B4, Q4. subst r2'.
  assert (O4 : on a b (eo_model o4)) by exact (on_base _ _ _ _ O3 B4).
  pose proof L4 as (W4 & _). rewrite wipe_refer in W4. pose proof (wipe_fields _ _ W4) as (_ & Z2 & _ & _ & Z5 & Z6 & _ & _).
  assert (R : read_state mem i o4 (SpMember i) = Some (em_state v4)).
  { rewrite (own_read_state mem i o4 _ eq_refl), Z2. reflexivity. }
  assert (L4' : Near mem i False (a = true) False (b = true) o4 v4).
  { apply (Near_weaken mem i (a = true) (a = true) (b = true) (b = true)); auto; tauto. }
  eapply orel_bind; [exact (UpdateComponentsState_sim mem i a b o4 v4 (SpMember i) _ O4 L4' R)|].
  intros o5 v5 (L5 & B5 & _ & _ & P3' & P4' & P5' & P6'). cbn.
  assert (O5 : on a b (eo_model o5)) by exact (on_base _ _ _ _ O4 B5).
  pose proof L5 as (W5 & _). rewrite wipe_refer in W5. pose proof (wipe_fields _ _ W5) as (_ & _ & _ & _ & T5 & T6 & _ & _).
  assert (BB : base o o5) by exact (base_trans _ _ _ B1 (base_trans _ _ _ B2 (base_trans _ _ _ B3 (base_trans _ _ _ B4 B5)))).
  pose proof (ptrs_trans _ _ _ Q2 (ptrs_trans _ _ _ Q3 Q4)) as (_ & _ & _ & G4 & _ & G6).
  assert (C5 : a = true -> own_stretch i (eo_core_stretch o5)). { intros H. rewrite P3', <- G4, P3. auto. }
  assert (D5 : b = true -> own_stretch i (eo_shell_stretch o5)). { intros H. rewrite P4', <- G6, P4. auto. }
  assert (own_ret : forall p, own_stretch i p -> tp_return p = p). { intros p [->|[->| ->]]; reflexivity. }
  split; [reflexivity|]. split; [exact (on_wipe a b _ _ O5 W5)|].
  pose proof (wipe_fields _ _ W) as (_ & _ & _ & _ & U5 & U6 & _).
  destruct BB as (_ & _ & _ & BB4 & BB5). split; [|cbn; split; congruence].
  assert (RT : Near mem i (a = true) (a = true) (b = true) (b = true) (eo_return o5) v5) by (apply return_near; auto).
  split.
  { intros mem'. apply (Near_mem mem); auto; cbn; intros H.
    - unfold own_state. rewrite (P5' H). reflexivity.
    - rewrite own_ret; auto.
    - unfold own_state. rewrite (P6' H). reflexivity.
    - rewrite own_ret; auto. }
  cbn. repeat split; intros H.
  - rewrite own_ret; auto.
  - rewrite own_ret; auto.
  - unfold own_state. rewrite (P5' H). reflexivity.
  - unfold own_state. rewrite (P6' H). reflexivity.
Qed.

Lemma point_near : forall mem i o v p q s t, wipe (eo_model o) = wipe v ->
  read_state mem i o p = Some s -> read_stretch mem i o q = Some t ->
  Near mem i True True True True (eo_point o p q)
    (em_with_shell (em_with_core v (cm_set_stretch (cm_set_state (em_core v) (Some s)) (Some t)))
       (cm_set_stretch (cm_set_state (em_shell v) (Some s)) (Some t))).
Proof.
  intros mem i o v p q s t W R1 R2. unfold eo_point.
  assert (L0 : Near mem i False False False False o v). { split; [rewrite wipe_refer; exact W|tauto]. }
  assert (S1 : forall o', em_state (eo_model o') = em_state (eo_model o) -> read_state mem i o' p = Some s).
  { intros o' E. rewrite <- R1. apply read_state_same, E. }
  assert (S2 : forall o', em_stretch (eo_model o') = em_stretch (eo_model o) -> eo_stretch_core o' = eo_stretch_core o ->
     eo_stretch_shell o' = eo_stretch_shell o -> read_stretch mem i o' q = Some t).
  { intros o' E1 E2 E3. rewrite <- R2. apply read_stretch_same; assumption. }
  pose proof (core_state_near mem i _ _ _ _ o v p s L0 R1) as L1.
  pose proof (core_stretch_near mem i _ _ _ _ _ _ q t L1 (S2 (core_state_to o p) eq_refl eq_refl eq_refl)) as L2.
  pose proof (shell_state_near mem i _ _ _ _ _ _ p s L2 (S1 (core_stretch_to (core_state_to o p) q) eq_refl)) as L3.
  exact (shell_stretch_near mem i _ _ _ _ _ _ q t L3
    (S2 (shell_state_to (core_stretch_to (core_state_to o p) q) p) eq_refl eq_refl eq_refl)).
Qed.

Lemma unloaded_sim : forall mem i a b w o v, on a b v -> settled i a b o v -> em_upd_stretch v = true -> em_upd_state v = true ->
  orel (passed i a b) (eo_ValidateUnloaded mem i w o) (ValidateComponentsStrainUnloaded w v).
Proof.
  intros mem i a b w o v O S Et Eu. unfold eo_ValidateUnloaded, ValidateComponentsStrainUnloaded. destruct w.
  2: { cbn. split; auto. }
  pose proof (settled_wipe _ _ _ _ _ S) as W. pose proof (wipe_fields _ _ W) as (W1 & _ & _ & _ & W5 & W6 & _).
  assert (Oo : on a b (eo_model o)) by exact (on_wipe a b _ _ O (eq_sym W)).
  rewrite (proj1 Oo), (proj1 O). cbn [obind]. destruct a.
  2: { cbn. split; auto. }
  rewrite W1. destruct (deref (em_cable v)) as [k| |]; cbn [obind orel]; auto.
  destruct (deref (sg_base k)) as [bb| |]; cbn [obind orel]; auto. cbv zeta.
  set (s := mkCableState (cb_temperature bb) PTLoadStrain). set (t := mkStretchState (cb_temperature bb) PTLoadStrain #0).
  set (o1 := eo_point o (SpLocal s) (TpLocal t)).
  set (v1 := em_with_shell _ _).
  assert (L1 : strong mem i true b o1 v1).
  { apply (Near_weaken mem i True True True True); auto. exact (point_near mem i o v (SpLocal s) (TpLocal t) s t W eq_refl eq_refl). }
  assert (B1 : base o o1) by (unfold base; cbn; tauto).
  assert (O1 : on true b (eo_model o1)) by exact (on_base _ _ _ _ Oo B1).
  eapply orel_bind; [exact (ask_sim mem i true b _ _ o1 v1 (StrainCore_pure true b #0) O1 L1)|].
  intros [x o2] [x' v2] (E & L2 & B2 & Q2). cbn in E, L2, B2, Q2. subst x'.
  assert (O2 : on true b (eo_model o2)) by exact (on_base _ _ _ _ O1 B2).
  eapply orel_bind; [exact (ask_sim mem i true b _ _ o2 v2 (StrainShell_pure true b #0) O2 L2)|].
  intros [y o3] [y' v3] (E & L3 & B3 & Q3). cbn in E, L3, B3, Q3. subst y'.
  assert (O3 : on true b (eo_model o3)) by exact (on_base _ _ _ _ O2 B3).
  pose proof L3 as (W3 & _). rewrite wipe_refer in W3. pose proof (wipe_fields _ _ W3) as (_ & X2 & X3 & _ & X5 & X6 & _).
  set (o4 := eo_return (eo_point o3 (SpMember i) (TpCable i))).
  set (v4 := em_with_shell _ _). cbn [orel].
  assert (L4 : forall mem', Near mem' i True True True True o4 v4).
  { intros mem'. unfold o4. apply return_near; try (intros _; reflexivity). 
    apply (point_near mem' i o3 v3 (SpMember i) (TpCable i) (em_state v3) (em_stretch v3)).
    - exact W3.
    - rewrite (own_read_state mem' i o3 _ eq_refl), X2. reflexivity.
    - cbn. unfold eo_at. rewrite Z.eqb_refl. cbn. rewrite X3. reflexivity. }
  assert (B4 : base o o4).
  { apply (base_trans _ _ _ B1). apply (base_trans _ _ _ B2). apply (base_trans _ _ _ B3). unfold base; cbn; tauto. }
  pose proof (L4 mem) as (W4 & _). rewrite wipe_refer in W4. pose proof (wipe_fields _ _ W4) as (_ & _ & _ & _ & Y5 & Y6 & _).
  split; [reflexivity|]. split; [exact (on_wipe true b _ _ (on_base _ _ _ _ Oo B4) W4)|].
  destruct B4 as (_ & _ & _ & G4 & G5). cbn [snd].
  split; [|split; congruence].
  split; [intros mem'; apply (Near_weaken mem' i True True True True); auto|].
  repeat split; intros H; try (right; right; reflexivity).
Qed.

Lemma Validate_tail : forall w a v,
  (do (v1, core) <- component_model_valid w a (em_core v);
   let m := em_with_core v core in
   do s <- em_shell_on m;
   do (v2, shell) <- component_model_valid w s (em_shell m);
   let m := em_with_shell m shell in
   do (v3, m) <- ValidateComponentsStrainLimit w m;
   do (v4, m) <- ValidateComponentsStrainUnloaded w m;
   Ok (v1 && v2 && v3 && v4, m)) =
  (do (v1, m) <- (do (x, c) <- component_model_valid w a (em_core v); Ok (x, em_with_core v c));
   do s <- em_shell_on m;
   do (v2, m) <- (do (x, c) <- component_model_valid w s (em_shell m); Ok (x, em_with_shell m c));
   do (v3, m) <- ValidateComponentsStrainLimit w m;
   do (v4, m) <- ValidateComponentsStrainUnloaded w m;
   Ok (v1 && v2 && v3 && v4, m)).
Proof.
  intros w a v. destruct (component_model_valid w a (em_core v)) as [[z c]| |]; cbn [obind]; auto. cbv zeta.
  destruct (em_shell_on (em_with_core v c)) as [s| |]; cbn [obind]; auto.
  destruct (component_model_valid w s _) as [[z' c']| |]; reflexivity.
Qed.

Lemma Validate_sim : forall mem i w o v, inv i o v ->
  orel (fun p q => fst p = fst q /\ inv i (snd p) (snd q)) (eo_Validate mem i w o) (em_Validate w v).
Proof.
  intros mem i w o v H. pose proof H as (W & _). pose proof (wipe_fields _ _ W) as (W1 & W2 & W3 & _).
  unfold eo_Validate, em_Validate. cbv zeta. rewrite W1, W2, W3.
  destruct (match em_cable v with Some c => sg_Validate c | None => Ok false end) as [x| |]; cbn [obind]; try exact I.
  destruct (x && CableState_Validate (em_state v) && StretchState_Validate (em_stretch v)).
  2: { cbn. auto. }
  eapply orel_bind; [exact (Update_sim mem i o v H)|].
  intros o1 v1 (a & b & O1 & S1 & T1 & U1).
  pose proof (settled_wipe _ _ _ _ _ S1) as WW. pose proof (wipe_fields _ _ WW) as (X1 & _).
  assert (Oo : on a b (eo_model o1)) by exact (on_wipe a b _ _ O1 (eq_sym WW)).
  rewrite X1. destruct (deref (em_cable v1)) as [k| |]; cbn [obind]; try exact I.
  destruct (sg_on k) as [e| |]; cbn [obind]; try exact I. destruct e.
  2: { cbn. split; [reflexivity|]. exact (settled_inv _ _ _ _ _ S1 O1 T1). }
  rewrite (proj1 Oo), (proj1 O1). cbn [obind].
  match goal with |- orel ?r ?x _ => refine (eq_ind_r (fun y => orel r x y) _ (Validate_tail w a v1)) end.
  eapply (orel_bind _ _ _ _ (passed i a b)).
  { unfold eo_core_valid.
    assert (K : a && negb (pointers_defined mem i o1 (eo_core_state o1) (eo_core_stretch o1)) = false).
    { destruct S1 as (_ & C & _ & C' & _). destruct a; [|reflexivity]. rewrite own_defined; auto. }
    rewrite K. eapply orel_mono; [exact (settled_ask mem i a b _ _ o1 v1 (core_valid_pure w a b) O1 S1)|].
    intros p q (E & O2 & S2 & T2 & U2). unfold passed. rewrite T2, U2. auto. }
  intros [r1 o2] [r1' v2] (E & O2 & S2 & T2 & U2). cbn in E, O2, S2, T2, U2. subst r1'.
  pose proof (settled_wipe _ _ _ _ _ S2) as WW2.
  assert (Oo2 : on a b (eo_model o2)) by exact (on_wipe a b _ _ O2 (eq_sym WW2)).
  rewrite (proj2 Oo2), (proj2 O2). cbn [obind].
  eapply (orel_bind _ _ _ _ (passed i a b)).
  { unfold eo_shell_valid.
    assert (K : b && negb (pointers_defined mem i o2 (eo_shell_state o2) (eo_shell_stretch o2)) = false).
    { destruct S2 as (_ & _ & C & _ & C'). destruct b; [|reflexivity]. rewrite own_defined; auto. }
    rewrite K. eapply orel_mono; [exact (settled_ask mem i a b _ _ o2 v2 (shell_valid_pure w a b) O2 S2)|].
    intros p q (E & O3 & S3 & T3 & U3). unfold passed. rewrite T3, U3. auto. }
  intros [r2 o3] [r2' v3] (E & O3 & S3 & T3 & U3). cbn in E, O3, S3, T3, U3. subst r2'.
  eapply orel_bind; [exact (limit_sim mem i a b w o3 v3 O3 S3 T3 U3)|].
  intros [r3 o4] [r3' v4] (E & O4 & S4 & T4 & U4). cbn in E, O4, S4, T4, U4. subst r3'.
  eapply orel_bind; [exact (unloaded_sim mem i a b w o4 v4 O4 S4 T4 U4)|].
  intros [r4 o5] [r4' v5] (E & O5 & S5 & T5 & U5). cbn in E, O5, S5, T5, U5. subst r4'.
  cbn. split; [reflexivity|]. exact (settled_inv _ _ _ _ _ S5 O5 T5).
Qed.

(** ** Calls *)

Lemma query_sim : forall mem i (f : ElongModel N -> outcome (N * ElongModel N)) o v,
  (forall a b, pure a b f) -> inv i o v ->
  orel (fun p q => fst p = fst q /\ inv i (snd p) (snd q))
    (do o <- eo_Update mem i o; eo_ask mem i o f) (do m <- em_Update v; f m).
Proof.
  intros mem i f o v F H. eapply orel_bind; [exact (Update_sim mem i o v H)|].
  intros o1 v1 (a & b & O1 & S1 & T1 & U1).
  eapply orel_mono; [exact (settled_ask mem i a b _ f o1 v1 (F a b) O1 S1)|].
  intros [x o2] [y v2] (E & O2 & S2 & T2 & U2). cbn in *. split; [exact E|].
  apply (settled_inv i a b); auto. congruence.
Qed.

Lemma null_sim : forall mem i o v, inv i o v ->
  orel (fun p q => fst p = fst q /\ inv i (snd p) (snd q))
    (do o <- eo_Update mem i o; Ok (ferr, o)) (do m <- em_Update v; Ok (@ferr N, m)).
Proof.
  intros mem i o v H. eapply orel_bind; [exact (Update_sim mem i o v H)|].
  intros o1 v1 (a & b & O1 & S1 & T1 & U1). cbn. split; [reflexivity|]. exact (settled_inv i a b _ _ S1 O1 T1).
Qed.

Lemma component_sim : forall on (c d : CompModel N) k t, blank c = blank d ->
  orel (fun x y => blank x = blank y) (set_component_model on c k t) (set_component_model on d k t).
Proof.
  intros on c d k t H. unfold set_component_model. destruct on; [|cbn; reflexivity].
  unfold cm_set_component. destruct (deref (sk_base k)) as [b| |]; cbn [obind]; try exact I.
  destruct (ModulusExtrapolate b (cc_creep b) _) as [x| |]; cbn [obind]; try exact I.
  destruct (ModulusExtrapolate b (cc_loadstrain b) _) as [y| |]; cbn [obind]; try exact I.
  destruct t as [t| |]; cbn; auto. unfold blank, cm_refer, cm_set_tref in *. cbn. injection H. congruence.
Qed.

Lemma set_cable_sim : forall o v c, wipe (eo_model o) = wipe v ->
  orel (fun o' v' => wipe (eo_model o') = wipe v' /\ em_upd_stretch v' = false /\ em_upd_state v' = false)
    (eo_set_cable o c) (em_set_cable v c).
Proof.
  intros o v c W. pose proof (wipe_fields _ _ W) as (W1 & W2 & W3 & W4 & W5 & W6 & W7 & W8).
  unfold eo_set_cable, em_set_cable. destruct c as [k|].
  2: { cbn. split; [|auto]. apply fields_wipe; cbn; auto. }
  destruct (sg_core_on k) as [a| |]; cbn [obind]; try exact I.
  pose proof (component_sim a _ _ (sg_core k) (omap (@cb_temperature N) (deref (sg_base k))) W7) as K1.
  destruct (set_component_model a (em_core (eo_model o)) _ _) as [c1| |]; destruct (set_component_model a (em_core v) _ _) as [c2| |];
    cbn [orel] in K1; try contradiction; cbn [obind]; try exact I.
  destruct (sg_shell_on k) as [b| |]; cbn [obind]; try exact I.
  pose proof (component_sim b _ _ (sg_shell k) (omap (@cb_temperature N) (deref (sg_base k))) W8) as K2.
  destruct (set_component_model b (em_shell (eo_model o)) _ _) as [d1| |]; destruct (set_component_model b (em_shell v) _ _) as [d2| |];
    cbn [orel] in K2; try contradiction; cbn [obind]; try exact I.
  cbn. split; [|auto]. apply fields_wipe; cbn; auto.
Qed.

Lemma set_state_sim : forall i o v s, inv i o v -> inv i (eo_set_state o s) (em_set_state v s).
Proof.
  intros i o v s (W & T & U). pose proof (wipe_fields _ _ W) as (W1 & W2 & W3 & W4 & W5 & W6 & W7 & W8).
  split; [apply fields_wipe; cbn; auto|]. cbn. split; [|discriminate].
  intros E. destruct (T E) as (a & b & O & L & C & D). exists a, b. split; [exact O|]. split; [|auto].
  intros mem. destruct (L mem) as (X & H1 & H2 & H3 & H4). split; [rewrite wipe_refer; apply fields_wipe; cbn; auto|].
  split; [tauto|]. split; [|split; [tauto|]]; intros H; cbn; rewrite (read_stretch_same _ _ _ o) by reflexivity;
    [exact (H2 H)|exact (H4 H)].
Qed.

(** A call that leaves the flags of an object alone or clears them. *)
Definition clears (c : EmCall N) : bool := match c with EmSetCable _ | EmSetStretch _ => true | _ => false end.
Definition keeps (c : EmCall N) : bool := match c with EmSetState _ => true | _ => false end.
Definition unasked v : Prop := em_upd_stretch v = false /\ em_upd_state v = false.

Lemma call_sim : forall mem i o v c, inv i o v ->
  orel (fun p q => fst p = fst q /\ inv i (snd p) (snd q) /\
          (clears c = true \/ keeps c = true /\ unasked v -> unasked (snd q)))
    (eo_call mem i o c) (v_call v c).
Proof.
  intros mem i o v c H.
  assert (Q : forall A (k : A -> EmAnswer N) x y, clears c = false -> keeps c = false ->
    orel (fun p q => fst p = fst q /\ inv i (snd p) (snd q)) x y ->
    orel (fun p q => fst p = fst q /\ inv i (snd p) (snd q) /\ (clears c = true \/ keeps c = true /\ unasked v -> unasked (snd q)))
      (do (z, o) <- x; Ok (k z, o)) (do (z, m) <- y; Ok (k z, m))).
  { intros A k x y E1 E2 K. eapply orel_bind; [exact K|]. intros [z o1] [z' v1] [E J]. cbn in *. subst z'.
    split; [reflexivity|]. split; [exact J|]. rewrite E1, E2. intros [D|[D _]]; discriminate. }
  destruct c as [k|s|s|t x|t x|t y|w]; cbn [eo_call v_call em_call].
  - pose proof (set_cable_sim o v k (proj1 H)) as K.
    destruct (eo_set_cable o k) as [o1| |]; destruct (em_set_cable v k) as [v1| |]; cbn in *; try contradiction; auto.
    destruct K as (K1 & K2 & K3). split; [reflexivity|]. split; [apply inv_cleared; auto|]. unfold unasked. auto.
  - cbn. split; [reflexivity|]. split; [apply set_state_sim, H|]. intros [D|[_ U]]; [discriminate|]. split; [apply U|reflexivity].
  - cbn. split; [reflexivity|]. split; [|unfold unasked; cbn; auto]. destruct H as (W & _).
    pose proof (wipe_fields _ _ W) as (W1 & W2 & W3 & W4 & W5 & W6 & W7 & W8).
    apply inv_cleared; cbn; auto. apply fields_wipe; cbn; auto.
  - apply Q; auto. unfold eo_Load, em_Load. destruct t; [apply null_sim, H| | |]; apply query_sim; auto; intros a b;
      [apply LoadCombined_pure|apply LoadCore_pure|apply LoadShell_pure].
  - apply Q; auto. unfold eo_Slope, em_Slope. destruct t; [apply null_sim, H| | |]; apply query_sim; auto; intros a b;
      [apply SlopeCombined_pure|apply SlopeCore_pure|apply SlopeShell_pure].
  - apply Q; auto. unfold eo_Strain, em_Strain. destruct t; [apply null_sim, H| | |]; apply query_sim; auto; intros a b;
      [apply StrainCombined_pure|apply StrainCore_pure|apply StrainShell_pure].
  - apply Q; auto. apply Validate_sim, H.
Qed.

(** ** Programs *)

Definition minv (fresh : Z -> bool) (m : EMemory N) (w : VMemory N) : Prop :=
  ey_next m = vy_next w /\ forall j,
  match ey_objects m j, vy_models w j with
  | Some o, Some v => inv j o v /\ (fresh j = true -> unasked v)
  | None, None => True
  | _, _ => False
  end.

Lemma new_inv : forall i, inv i EObject_new ElongModel_new.
Proof. intros i. apply inv_cleared; reflexivity. Qed.

Lemma minv_put : forall fresh f (m : EMemory N) w n i o v, minv fresh m w -> inv i o v -> (f i = true -> unasked v) ->
  (forall j, j <> i -> f j = true -> fresh j = true) ->
  minv f (mkEMemory (eput (ey_objects m) i (Some o)) n) (mkVMemory (vput (vy_models w) i (Some v)) n).
Proof.
  intros fresh f m w n i o v [_ H] I1 U K. split; [reflexivity|]. intros j. cbn. unfold eput, vput.
  destruct (Z.eqb_spec i j) as [->|D]; [auto|]. specialize (H j).
  destruct (ey_objects m j) as [oj|], (vy_models w j) as [vj|]; auto.
  destruct H as [H1 H2]. split; [exact H1|]. intros E. apply H2, K; auto.
Qed.

Lemma mark_here : forall f i x, mark f i x i = x.
Proof. intros. unfold mark. rewrite Z.eqb_refl. reflexivity. Qed.
Lemma mark_there : forall f i x j, j <> i -> mark f i x j = f j.
Proof. intros f i x j H. unfold mark. destruct (Z.eqb_spec i j); congruence. Qed.

Lemma run_sim : forall cs fresh shared (m : EMemory N) w, minv fresh m w -> early fresh shared (ey_next m) cs ->
  omap fst (e_run m cs) = omap fst (v_run w cs).
Proof.
  induction cs as [|c cs IH]; intros fresh shared m w H E; [reflexivity|]. cbn [e_run v_run].
  assert (step : forall f sh x y, orel (fun p q => fst p = fst q /\ minv f (snd p) (snd q) /\ early f sh (ey_next (snd p)) cs) x y ->
    omap fst (do (a, m) <- x; do (l, m) <- e_run m cs; Ok (a :: l, m)) =
    omap fst (do (a, m) <- y; do (l, m) <- v_run m cs; Ok (a :: l, m))).
  { intros f sh [[p m1]| |] [[q w1]| |] K; cbn in *; try contradiction; auto. destruct K as (K1 & K2 & K3). subst q.
    specialize (IH f sh m1 w1 K2 K3).
    destruct (e_run m1 cs) as [[l1 m2]| |], (v_run w1 cs) as [[l2 w2]| |]; cbn in *; try discriminate; auto. congruence. }
  pose proof H as [Hn Hj]. destruct c as [|i|i j|i|i c]; cbn [early] in E.
  - apply (step (mark fresh (ey_next m) true) (mark shared (ey_next m) false)). cbn [e_step v_step orel]. rewrite <- Hn.
    split; [reflexivity|]. split; [|exact E]. apply (minv_put fresh); auto using new_inv.
    + intros _. split; reflexivity.
    + intros k D K. rewrite mark_there in K; auto.
  - destruct E as [F E]. apply (step (mark fresh (ey_next m) true) (mark (mark shared i true) (ey_next m) true)).
    cbn [e_step v_step]. specialize (Hj i). destruct (ey_objects m i) as [o|], (vy_models w i) as [v|]; cbn; try contradiction; auto.
    destruct Hj as [Hi Hu]. specialize (Hu F). rewrite <- Hn. split; [reflexivity|]. split; [|exact E].
    apply (minv_put fresh); auto.
    + destruct Hu as [U1 U2]. apply inv_cleared; auto. apply Hi.
    + intros k D K. rewrite mark_there in K; auto.
  - destruct E as [F E]. apply (step (mark fresh i true) (mark (mark shared i true) j true)).
    cbn [e_step v_step]. pose proof (Hj i) as Hi. specialize (Hj j).
    destruct (ey_objects m i) as [o0|], (vy_models w i) as [v0|]; cbn; try contradiction; auto.
    destruct (ey_objects m j) as [o|], (vy_models w j) as [v|]; cbn; try contradiction; auto.
    destruct Hj as [Hj Hu]. specialize (Hu F). rewrite <- Hn. split; [reflexivity|]. split; [|exact E].
    apply (minv_put fresh); auto.
    + destruct Hu as [U1 U2]. apply inv_cleared; auto. apply Hj.
    + intros k D K. rewrite mark_there in K; auto.
  - destruct E as [F E]. apply (step fresh shared). cbn [e_step v_step]. pose proof (Hj i) as Hi.
    destruct (ey_objects m i) as [o|], (vy_models w i) as [v|]; cbn; try contradiction; auto.
    split; [reflexivity|]. split; [|exact E]. split; [exact Hn|]. intros k. cbn. unfold eput, vput.
    destruct (Z.eqb_spec i k); [exact I|apply Hj].
  - assert (K : exists f sh, early f sh (ey_next m) cs /\ (forall k, k <> i -> f k = true -> fresh k = true) /\
       (f i = true -> clears c = true \/ keeps c = true /\ fresh i = true)).
    { destruct c; try (destruct E as [F E]);
        first [ exists (mark fresh i true), shared; split; [exact E|]; split; [intros k D X; rewrite mark_there in X; auto|left; reflexivity]
              | exists (mark fresh i false), shared; split; [exact E|]; split; [intros k D X; rewrite mark_there in X; auto|rewrite mark_here; discriminate]
              | exists fresh, shared; split; [exact E|]; split; [auto|intros X; right; split; [reflexivity|exact X]] ]. }
    destruct K as (f & sh & E' & F1 & F2). apply (step f sh). cbn [e_step v_step].
    pose proof (Hj i) as Hi. destruct (ey_objects m i) as [o|], (vy_models w i) as [v|]; cbn; try contradiction; auto.
    destruct Hi as [Hi Hu]. pose proof (call_sim (ey_objects m) i o v c Hi) as K.
    destruct (eo_call (ey_objects m) i o c) as [[x o1]| |], (v_call v c) as [[y v1]| |]; cbn in *; try contradiction; auto.
    destruct K as (K1 & K2 & K3). rewrite <- Hn. split; [exact K1|]. split; [|exact E'].
    apply (minv_put fresh); auto. intros X. apply K3. destruct (F2 X) as [C|[C1 C2]]; auto.
Qed.

Theorem early_answers : forall cs : list (ECall N), copies_early cs -> program_answers cs = value_answers cs.
Proof.
  intros cs E. apply (run_sim cs (fun _ => false) (fun _ => false)); [|exact E]. split; [reflexivity|]. intros j. exact I.
Qed.

Lemma no_copy_early : forall cs fresh next, Forall (@no_copy N) cs -> early fresh (fun _ => false) next cs.
Proof.
  assert (G : forall cs fresh shared next, (forall j, shared j = false) -> Forall (@no_copy N) cs -> early fresh shared next cs).
  { induction cs as [|c cs IH]; intros fresh shared next S F; [exact I|]. inversion F as [|c' cs' C F']; subst.
    destruct c as [|i|i j|i|i c]; cbn in *; try contradiction.
    - apply IH; auto. intros j. unfold mark. destruct (next =? j)%Z; auto.
    - auto.
    - destruct c; auto. }
  intros. apply G; auto.
Qed.

Theorem uncopied_answers : forall cs : list (ECall N), Forall no_copy cs -> program_answers cs = value_answers cs.
Proof. intros cs H. apply early_answers. apply no_copy_early, H. Qed.

End Run.
