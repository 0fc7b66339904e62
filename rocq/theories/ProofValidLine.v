(** Proofs about LineCable::Validate, in exact arithmetic. *)
From Coq Require Import ZArith Bool List Reals Lra Lia.
From Verif Require Import Num NumFacts ModelBase ModelAlignment ModelLine ModelCable ModelCatenary SpecCatenary SpecCatenary3 ModelSolver
  ModelLoad ModelThermal ModelElongation ModelReload ModelSagtension ModelSagging SpecValidLine ProofReal ProofLine ProofCatenary ProofCatenary3 ProofSolver
  ProofSolverTarget ProofFragments ProofCorrectorCases.
Import ListNotations.
Open Scope R_scope.

Lemma weather_iff : forall w, weather_valid w = true <-> weather_set w.
Proof.
  intros [w|]; unfold weather_set; cbn [weather_valid].
  - unfold WeatherLoadCase_Validate. rewrite !andb_true_iff, !negb_true_iff. rn. rewrite ?Rltb_false, ?Rleb_false, ?Reqb_true. split.
    + intros H. exists w. split; [reflexivity|]. lra.
    + intros (c & E & H). injection E as <-. lra.
  - split; [discriminate|]. intros (c & E & _). discriminate E.
Qed.

Lemma inputs_iff : forall s, Stringing_inputs_valid s = true <-> inputs_in_range s.
Proof.
  intros s. unfold Stringing_inputs_valid, inputs_in_range, Constraint_Validate, attachments_valid.
  rewrite !andb_true_iff, !negb_true_iff, !weather_iff.
  assert (C : match sr_cable s with Some c => Cable_Validate c | None => false end = true <->
    exists c, sr_cable s = Some c /\ 0 <= cb_area c /\ 0 < cb_diameter c /\ 0 < cb_weight c).
  { destruct (sr_cable s) as [c|]; [|split; [discriminate|intros (c & E & _); discriminate E]].
    unfold Cable_Validate. rewrite !andb_true_iff, !negb_true_iff. rn. rewrite ?Rltb_false, ?Rleb_false, ?Reqb_true. split.
    - intros H. exists c. split; [reflexivity|]. lra.
    - intros (c0 & E & H). injection E as <-. lra. }
  rewrite C. clear C.
  assert (K : known_condition (co_condition (sr_constraint s)) = true <-> co_condition (sr_constraint s) <> CdNull)
    by (destruct (co_condition (sr_constraint s)); cbn; split; congruence).
  assert (T : known_limit (co_type (sr_constraint s)) = true <-> co_type (sr_constraint s) <> LmNull)
    by (destruct (co_type (sr_constraint s)); cbn; split; congruence).
  rewrite K, T. rn. rewrite ?Rltb_false, ?Rleb_false, ?Reqb_true.
  assert (Z : Rabs (v3z (sr_spacing s)) <= 2000 <-> -2000 <= v3z (sr_spacing s) <= 2000).
  { split; [unfold Rabs; destruct (Rcase_abs (v3z (sr_spacing s))); intros; lra|intros H; apply Rabs_le; lra]. }
  rewrite Z. tauto.
Qed.

Lemma loop_readable : forall env cs, ValidateConnections_loop env cs = Ok tt <->
  forall c : Connection RNum, In c cs -> exists s h i, ModelLine.deref env (cn_line_structure c) = Ok s /\
    cn_index_attachment c = Z.of_nat i /\ nth_error (ls_hardwares s) i = Some (Some h).
Proof.
  intros env. induction cs as [|c cs IH]; cbn [ValidateConnections_loop].
  - split; [intros _ c []|auto].
  - split.
    + intros H. destruct (ModelLine.deref env (cn_line_structure c)) as [s| |] eqn:D; try discriminate H. cbn [obind] in H.
      destruct (vec_at (ls_hardwares s) (cn_index_attachment c)) as [[h|]| |] eqn:V; try discriminate H. cbn [obind] in H.
      apply vec_at_ok_range in V as (V1 & V2).
      intros k [<-|K]; [|apply IH; assumption].
      exists s, h, (Z.to_nat (cn_index_attachment c)). split; [exact D|]. split; [lia|exact V2].
    + intros H. destruct (H c (or_introl eq_refl)) as (s & h & i & D & E & V). rewrite D. cbn [obind]. rewrite E.
      unfold vec_at. replace (Z.of_nat i <? 0)%Z with false by (symmetry; apply Z.ltb_ge; lia).
      rewrite Nat2Z.id, V. cbn [obind]. apply IH. intros k K. apply H. right. exact K.
Qed.

Lemma readable_iff : forall env cs, (exists b, ValidateConnections env cs = Ok b) <-> connections_readable env cs.
Proof.
  intros env cs. unfold ValidateConnections, connections_readable. destruct (Nat.ltb_spec (length cs) 2) as [L|L].
  - split; [intros _ H; lia|eauto].
  - rewrite <- loop_readable. split.
    + intros (b & H) _. destruct (ValidateConnections_loop env cs) as [[]| |]; [reflexivity|discriminate H..].
    + intros H. rewrite (H L). cbn [obind]. eauto.
Qed.

Lemma span_usable : forall (s : Stringing RNum) k, CatenaryRulingSpan s = Ok k -> c3_Validate k = true ->
  usable3 k /\ c3_spacing k = sr_spacing s.
Proof.
  intros s k E V. unfold CatenaryRulingSpan in E. destruct (unit_load s _) as [w| |]; try discriminate E.
  cbn [obind] in E. injection E as <-. split; [|reflexivity].
  exact (valid_usable [C3SetSpacing (sr_spacing s); C3SetWeight w; C3SetTension (constraint_tension s w)] V).
Qed.

Lemma valid_line_iff : forall env (l : Strung RNum), Strung_Validate env l = Ok true <->
  inputs_in_range (lc_payload l) /\ connections_readable env (lc_connections l) /\
  exists k, CatenaryRulingSpan (lc_payload l) = Ok k /\ c3_Validate k = true /\ usable3 k /\ c3_spacing k = sr_spacing (lc_payload l).
Proof.
  intros env l. unfold Strung_Validate. rewrite <- inputs_iff, <- readable_iff.
  destruct (Stringing_inputs_valid (lc_payload l)); [|split; [discriminate|intros (H & _); discriminate H]].
  split.
  - intros H. destruct (CatenaryRulingSpan (lc_payload l)) as [k| |] eqn:E; try discriminate H. cbn [obind] in H.
    destruct (ValidateConnections env (lc_connections l)) as [b| |]; try discriminate H. cbn [obind] in H. injection H as H.
    split; [reflexivity|]. split; [eauto|]. exists k. split; [reflexivity|]. split; [exact H|].
    exact (span_usable _ _ E H).
  - intros (_ & (b & B) & k & E & V & _). rewrite E. cbn [obind]. rewrite B. cbn [obind]. rewrite V. reflexivity.
Qed.

(** ** A light wire between two structures *)
Definition vl_structure : LineStructure RNum :=
  mkLS [None; Some (mkHardware (N := RNum) (1 : R) (2 : R) DeadEnd (50 : R))] (0 : R) (0 : R) (0 : R) (10 : R) None.
Definition vl_line : Strung RNum :=
  mkLC [mkConn 1 (SExt vl_structure); mkConn 1 (SExt vl_structure)] (lc_payload (rl_line 2)).

Lemma vl_inputs : inputs_in_range (lc_payload vl_line).
Proof.
  assert (W : weather_set (Some rl_weather)).
  { exists rl_weather. split; [reflexivity|]. cbn. lra. }
  unfold inputs_in_range. split; [exists rl_cable; split; [reflexivity|]; cbn; lra|].
  split; [exact W|]. split; [discriminate|]. split; [discriminate|]. cbn. repeat split; auto; lra.
Qed.

Lemma vl_readable : connections_readable [] (lc_connections vl_line).
Proof.
  intros _ c [<-|[<-|[]]]; exists vl_structure; eexists; exists 1%nat; (split; [reflexivity|split; reflexivity]).
Qed.

Lemma vl_valid : Strung_Validate [] vl_line = Ok true.
Proof.
  apply valid_line_iff. split; [exact vl_inputs|]. split; [exact vl_readable|].
  destruct (rl_span 2 ltac:(lra)) as (k & E & V & _). exists k. split; [exact E|]. split; [exact V|].
  exact (span_usable _ _ E V).
Qed.
