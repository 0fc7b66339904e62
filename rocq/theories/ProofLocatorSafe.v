(** The calls on a locator with its inputs are defined. *)
From Coq Require Import ZArith Bool List Lia.
From Verif Require Import Num ModelBase ModelAlignment ModelLine ModelCatenary SpecCatenary ModelThermal ModelLocator SpecLocator SpecLine SpecTransmission SpecDefined
  ProofLine ProofLineInv ProofLineFacts ProofLineCoord ProofLineQuery ProofLineSafe ProofLocator ProofLocatorShape.
Import ListNotations.
Open Scope num_scope.
Open Scope list_scope.

Section Safe.
Context {N : Num} (ok : N -> Prop) (OL : OrdLaws N ok) {P : Type}.
Implicit Types l : Line N P.
Implicit Types s : Locator N P.

(** A line in a state that the calls of its class keep. *)
Definition fine l : Prop := Inv ok l /\ Inv2 l.

Lemma obind_UB : forall (A B : Type) (a : outcome A) (f : A -> outcome B), a <> UB -> (forall x, a = Ok x -> f x <> UB) -> obind a f <> UB.
Proof. intros A B [a| |] f H G; cbn [obind]; [apply G; reflexivity|discriminate|contradiction]. Qed.

Lemma fine_step : forall l c l' r, fine l -> call_args_ok ok c -> line_step l c = (l', r) -> r <> UB -> fine l'.
Proof. intros l c l' r (A & B) C H R. split; [exact (step_Inv ok OL l c l' r A C H R)|exact (step_Inv2 l c l' r B H R)]. Qed.

(** ** The points of the connections *)
Lemma slot_structure : forall l (c : Connection N) id st h, fine l -> cn_line_structure c = SOwned id -> lookup (tl_line_structures l) id = Some st ->
  vec_at (ls_hardwares st) (cn_index_attachment c) = Ok (Some h) -> ls_structure st <> None.
Proof.
  intros l c id st h ((_ & (_ & _ & _ & _ & W) & _) & _) C L V. apply lookup_In in L. rewrite Forall_forall in W. specialize (W _ L).
  cbn [snd] in W. unfold wf_structure, slots_match in W. destruct (ls_structure st); [discriminate|]. rewrite W in V.
  unfold vec_at in V. destruct (_ <? 0)%Z; [discriminate V|]. destruct (Z.to_nat _); discriminate V.
Qed.

Lemma attachment_point : forall l (c : Connection N), fine l -> hw_ok (tl_line_structures l) c ->
  forall l' p, PointXyzLineStructureAttachment l (IndexLineStructure l (cn_line_structure c)) (cn_index_attachment c) = (l', p) ->
  p <> UB /\ (p <> Throw -> fine l').
Proof.
  intros l c F (id & st & h & C & L & V) l' p H.
  set (i := IndexLineStructure l (cn_line_structure c)) in *. set (j := cn_index_attachment c) in *.
  assert (S : call_safe l (CPointXyzLineStructureAttachment i j)).
  { intros s I E. unfold i in *. rewrite C in *. cbn [IndexLineStructure] in *.
    destruct (index_of_id_ge (tl_line_structures l) id 0) as [[E1 _]|(s' & E1 & E2)]; [lia|rewrite E1 in I; lia|].
    rewrite Z.sub_0_r in E2. unfold structures_of in E. rewrite nth_error_map, E2 in E. injection E as <-.
    assert (s' = st).
    { apply nth_error_In in E2. destruct F as ((_ & (_ & _ & ND & _) & _) & _).
      apply In_lookup in E2; [|exact ND]. congruence. }
    subst s'. eapply slot_structure; eauto. }
  assert (K : call_args_ok ok (CPointXyzLineStructureAttachment (N := N) (P := P) i j)) by exact I.
  pose proof (step_safe ok OL l _ (proj1 F) (proj2 F) K S) as Sf.
  assert (St : line_step l (CPointXyzLineStructureAttachment i j) = drop (l', p)) by (unfold line_step; rewrite H; reflexivity).
  rewrite St in Sf. unfold drop in *. cbn [fst snd] in *.
  split; [intros ->; apply Sf; reflexivity|]. intros T. eapply fine_step; [exact F|exact K|exact St|exact Sf].
Qed.

Lemma data_safe : forall cs l, fine l -> Forall (hw_ok (tl_line_structures l)) cs ->
  connection_data l cs <> UB /\ forall r l', connection_data l cs = Ok (r, l') -> fine l'.
Proof.
  induction cs as [|c cs IH]; intros l F H; cbn [connection_data].
  - split; [discriminate|]. intros r l' E. injection E as <- <-. exact F.
  - inversion H as [|? ? Hc Hcs]; subst. destruct (PointXyzLineStructureAttachment l _ _) as [l1 p] eqn:Q.
    destruct (attachment_point l c F Hc _ _ Q) as (Np & F1).
    assert (K : tl_line_structures l1 = tl_line_structures l) by (eapply query_like; exact Q).
    destruct p as [p| |]; [|split; [discriminate|intros r l' E; discriminate E]|contradiction]. cbn [obind].
    assert (F' : fine l1) by (apply F1; discriminate). clear F1.
    destruct (p3x p =? ferr); [split; [discriminate|]; intros r l' E; injection E as <- <-; exact F'|].
    pose proof Hc as (id & st & h & C & L & V). rewrite C, K. cbn [ModelLine.deref]. rewrite L. cbn [obind]. rewrite V. cbn [obind].
    rewrite <- K in Hcs. destruct (IH l1 F' Hcs) as (U & G).
    destruct (connection_data l1 cs) as [[r l2]| |] eqn:E; [|split; [discriminate|intros ? ? E2; discriminate E2]|contradiction].
    cbn [obind]. split; [discriminate|]. intros r' l' E2. injection E2 as <- <-. exact (G _ _ eq_refl).
Qed.

(** ** The search is defined *)
Lemma hardware_loop_ok : forall (c : Catenary3d N) ps hs back im, exists r, hardware_loop c back ps hs im = Ok r.
Proof.
  intros c. induction ps as [|p ps IH]; intros hs back im; [eexists; reflexivity|].
  cbn [hardware_loop]. destruct ps as [|q ps]; [eexists; reflexivity|]. destruct hs as [|h hs]; [eexists; reflexivity|].
  match goal with |- context [ae_AngleEquilibrium ?s] => destruct (ae_AngleEquilibrium s) as [[a s1]| |] eqn:A; [|discriminate A|discriminate A] end.
  cbn [obind]. assert (T : exists t (s2 : Equilibrium N), ae_TensionImbalance s1 = Ok (t, s2)).
  { unfold ae_AngleEquilibrium in A. cbn [ae_ensure ae_updated attachment_solver ae_set_direction] in A. unfold ae_ensure in A. cbn in A.
    injection A as _ <-. eexists; eexists; reflexivity. }
  destruct T as (t & s2 & ->). cbn [obind]. edestruct (IH hs p) as ([rest im'] & ->). cbn [obind]. eexists. reflexivity.
Qed.

Lemma position_loop_ok : forall (c : Catenary3d N) st fuel iter im cables hs, exists r, position_loop c st fuel iter im cables hs = Ok r.
Proof.
  intros c st. induction fuel as [|fuel IH]; intros iter im cables hs; cbn [position_loop]; [eexists; reflexivity|].
  destruct (_ && _); [|eexists; reflexivity].
  assert (U : exists r, UpdatePointsHardware c cables hs = Ok r).
  { unfold UpdatePointsHardware. destruct cables as [|p ps]; [eexists; reflexivity|]. destruct hs as [|h hs]; [eexists; reflexivity|].
    edestruct hardware_loop_ok as ([rest im'] & ->). cbn [obind]. eexists. reflexivity. }
  destruct U as ([hs' im'] & ->). cbn [obind]. apply IH.
Qed.

(** ** The object *)
Definition fine_line s : Prop := forall l, pl_line s = Some l -> fine l.

Lemma next_deref_in : forall (A : Type) (m : list A) i, (0 <= i < Z.of_nat (length m))%Z -> exists x, next_deref m i = Ok x /\ In x m.
Proof.
  intros A m i H. unfold next_deref. destruct (nth_error m (Z.to_nat i)) as [x|] eqn:E.
  - exists x. split; [|eapply nth_error_In; exact E]. destruct (i <? 0)%Z eqn:Z; [lia|]. try reflexivity.
  - apply nth_error_None in E. lia.
Qed.

Lemma update_line : forall s b s', pl_Update s = Ok (b, s') -> fine_line s -> fine_line s'.
Proof.
  intros s b s' H F. unfold pl_Update in H. destruct (pl_line s) as [l|] eqn:L; cbn [ModelThermal.deref obind] in H; [|discriminate H].
  destruct (next_deref (tl_line_cables l) (pl_index s)) as [c| |] eqn:C; cbn [obind] in H; try discriminate H.
  assert (Hc : Forall (hw_ok (tl_line_structures l)) (lc_connections c)).
  { destruct (F l L) as ((_ & _ & (K & _)) & _). rewrite Forall_forall in K.
    assert (I : In c (tl_line_cables l)).
    { unfold next_deref in C. destruct (nth_error (tl_line_cables l) (Z.to_nat (pl_index s))) eqn:E; [apply nth_error_In in E|];
        destruct (pl_index s <? 0)%Z; congruence. }
    apply (K c I). }
  destruct (data_safe _ l (F l L) Hc) as (_ & G).
  destruct (connection_data l (lc_connections c)) as [[r l']| |] eqn:D; cbn [obind] in H; try discriminate H.
  specialize (G _ _ eq_refl). destruct r as [[st hws]|].
  - destruct (ModelThermal.deref (pl_weight s)) as [w| |]; cbn [obind] in H; try discriminate H.
    destruct (position_loop _ _ _ _ _ _ _) as [[[it cs] hs]| |]; cbn [obind] in H; try discriminate H. injection H as <- <-.
    intros k E. cbn in E. injection E as <-. exact G.
  - injection H as <- <-. intros k E. cbn in E. injection E as <-. exact G.
Qed.

Lemma update_safe : forall s, fine_line s -> equipped s -> pl_Update s <> UB.
Proof.
  intros s F (l & L & I & W). unfold pl_Update. rewrite L. cbn [ModelThermal.deref obind].
  destruct (next_deref_in _ _ _ I) as (c & -> & Ic). cbn [obind].
  assert (Hc : Forall (hw_ok (tl_line_structures l)) (lc_connections c)).
  { destruct (F l L) as ((_ & _ & (K & _)) & _). rewrite Forall_forall in K. apply (K c Ic). }
  destruct (data_safe _ l (F l L) Hc) as (U & _). apply obind_UB; [exact U|]. intros [[[st hws]|] l'] _; [|discriminate].
  destruct (pl_weight s) as [w|]; [|contradiction]. cbn [ModelThermal.deref obind].
  edestruct position_loop_ok as ([[it cs] hs] & ->). discriminate.
Qed.

Lemma ensure_safe : forall s, fine_line s -> equipped s -> pl_ensure s <> UB.
Proof. intros s F E. unfold pl_ensure. destruct (pl_updated s); [discriminate|apply update_safe; assumption]. Qed.

Lemma ensure_line : forall s b s', pl_ensure s = Ok (b, s') -> fine_line s -> fine_line s'.
Proof. intros s b s' H F. unfold pl_ensure in H. destruct (pl_updated s); [injection H as _ <-; exact F|exact (update_line _ _ _ H F)]. Qed.

(** Validate of the line *)
Definition pl_with_line s l : Locator N P :=
  mkLocator (pl_direction s) (pl_hardwares s) (pl_index s) (pl_updated s) (Some l) (pl_cable s)
    (pl_hardware s) (pl_structure s) (pl_size s) (pl_tension s) (pl_weight s).

Lemma Validate_line : forall l parts l' r, fine l -> parts <> UB -> Line_Validate l parts = (l', r) ->
  r <> UB /\ (r <> Throw -> fine l' /\ tl_line_cables l' = tl_line_cables l).
Proof.
  intros l parts l' r F Np H.
  assert (K : call_args_ok ok (CValidate (N := N) (P := P) parts)) by exact I.
  pose proof (step_safe ok OL l (CValidate parts) (proj1 F) (proj2 F) K Np) as Sf.
  assert (St : line_step l (CValidate parts) = drop (l', r)) by (unfold line_step; rewrite H; reflexivity).
  rewrite St in Sf. unfold drop in *. cbn [fst snd] in *.
  split; [intros ->; apply Sf; reflexivity|]. intros T. split; [eapply fine_step; [exact F|exact K|exact St|exact Sf]|].
  unfold Line_Validate in H. destruct parts as [v| |]; [|injection H as <- <-; reflexivity|contradiction].
  destruct (Update l) as [l1 o] eqn:U. apply Update_like in U. destruct U as (_ & U & _). destruct o; injection H as <- <-; exact U.
Qed.

Lemma validate_safe : forall s parts, fine_line s -> equipped s -> parts <> UB -> pl_Validate parts s <> UB.
Proof.
  intros s parts F (l & L & I & W) Np. unfold pl_Validate. rewrite L. destruct (Line_Validate l parts) as [l' r] eqn:V.
  destruct (Validate_line l parts l' r (F l L) Np V) as (Nr & G). destruct r as [v| |]; [|discriminate|contradiction].
  destruct (G ltac:(discriminate)) as (F' & C). cbn [obind].
  apply obind_UB; [|intros [b t] _; discriminate]. apply update_safe.
  - intros k E. cbn in E. injection E as <-. exact F'.
  - exists l'. cbn. rewrite C. auto.
Qed.

Lemma validate_line : forall s parts b s', pl_Validate parts s = Ok (b, s') -> fine_line s -> fine_line s'.
Proof.
  intros s parts b s' H F. unfold pl_Validate in H. destruct (pl_line s) as [l|] eqn:L.
  - destruct (Line_Validate l parts) as [l' r] eqn:V. destruct r as [v| |]; cbn [obind] in H; try discriminate H.
    assert (Np : parts <> UB) by (intros ->; cbn in V; discriminate V).
    destruct (Validate_line l parts l' _ (F l L) Np V) as (_ & G). destruct (G ltac:(discriminate)) as (F' & _).
    match type of H with context [pl_Update ?t] => destruct (pl_Update t) as [[b1 t1]| |] eqn:U end; cbn [obind] in H; try discriminate H.
    injection H as _ <-. apply (update_line _ _ _ U). intros k E. cbn in E. injection E as <-. exact F'.
  - cbn [obind] in H. destruct (pl_Update s) as [[b1 t1]| |] eqn:U; cbn [obind] in H; try discriminate H.
    injection H as _ <-. exact (update_line _ _ _ U F).
Qed.

(** ** Histories *)
Lemma call_line : forall s k s', takes_lines ok k -> pl_call s k = Ok s' -> fine_line s -> fine_line s'.
Proof.
  intros s k s' T H F. destruct k; cbn [pl_call takes_lines] in *; try (injection H as <-; exact F).
  - injection H as <-. intros k E. cbn in E. subst. split; [apply (reachable_Inv ok OL)|apply (reachable_Inv2 ok)]; exact T.
  - destruct (PointsCable s index num) as [[a t]| |] eqn:Q; cbn in H; try discriminate H. injection H as <-.
    unfold PointsCable in Q. destruct (pl_ensure s) as [[b t']| |] eqn:E; cbn [obind] in Q; try discriminate Q.
    apply (ensure_line _ _ _ E) in F. destruct (negb b); [injection Q as _ <-; exact F|].
    destruct (_ || _); [injection Q as _ <-; exact F|].
    destruct (vec_get _ index); cbn [obind] in Q; try discriminate Q. destruct (vec_get _ (index + 1)); cbn [obind] in Q; try discriminate Q.
    destruct (ModelThermal.deref (pl_weight t')); cbn [obind] in Q; try discriminate Q. injection Q as _ <-. exact F.
  - destruct (PointsCableAttachment s) as [[a t]| |] eqn:Q; cbn in H; try discriminate H. injection H as <-.
    unfold PointsCableAttachment in Q. destruct (pl_ensure s) as [[b t']| |] eqn:E; cbn [obind] in Q; try discriminate Q. injection Q as _ <-.
    exact (ensure_line _ _ _ E F).
  - destruct (pl_Validate parts s) as [[a t]| |] eqn:Q; cbn in H; try discriminate H. injection H as <-. exact (validate_line _ _ _ _ Q F).
Qed.

Lemma run_line : forall ks s s', Forall (takes_lines ok) ks -> pl_run s ks = Ok s' -> fine_line s -> fine_line s'.
Proof.
  induction ks as [|k ks IH]; intros s s' T H F; cbn [pl_run] in H; [injection H as <-; exact F|].
  inversion T; subst. destruct (pl_call s k) as [t| |] eqn:E; cbn [obind] in H; try discriminate H.
  eapply IH; eauto. eapply call_line; eauto.
Qed.

Lemma locator_defined : forall ks s, Forall (takes_lines ok) ks -> pl_run Locator_new ks = Ok s -> equipped s ->
  PointsCableAttachment s <> UB /\ (forall parts, parts <> UB -> pl_Validate parts s <> UB) /\
  forall index num, (forall ps s', PointsCableAttachment s = Ok (Some ps, s') -> index <> (Z.of_nat (length ps) - 1)%Z) ->
    PointsCable s index num <> UB.
Proof.
  intros ks s T H E. pose proof (run_line ks Locator_new s T H ltac:(intros l K; discriminate K)) as F.
  pose proof (ensure_safe s F E) as U.
  split; [unfold PointsCableAttachment; apply obind_UB; [exact U|intros [b t] _; discriminate]|].
  split; [intros parts Np; apply validate_safe; assumption|]. intros index num D.
  destruct (PointsCableAttachment s) as [[[ps|] t]| |] eqn:Q.
  - specialize (D ps t eq_refl). destruct (points_bounds s ps t (run_current ks s H) Q index num) as (A & B & _).
    destruct (Z_lt_dec index 0) as [L|L]; [rewrite (B (or_introl L)); discriminate|].
    destruct (Z_le_dec (Z.of_nat (length ps)) index) as [G|G]; [rewrite (B (or_intror G)); discriminate|].
    destruct A as (qs & -> & _); [lia|discriminate].
  - rewrite (points_none _ _ Q). discriminate.
  - unfold PointsCableAttachment in Q. unfold PointsCable. destruct (pl_ensure s) as [[b t]| |]; cbn [obind] in Q |- *; try discriminate Q. discriminate.
  - unfold PointsCableAttachment in Q. destruct (pl_ensure s) as [[b t]| |]; cbn [obind] in Q; try discriminate Q. contradiction.
Qed.

End Safe.
