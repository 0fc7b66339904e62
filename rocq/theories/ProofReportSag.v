(** The laws of messages for the sagger and, where a rejection has to be explained, for the
    corrector; what a failed update of the sagger and of the line cables says. *)
From Coq Require Import ZArith Bool List String Lia.
From Verif Require Import Num ModelBase ModelAlignment ModelLine ModelCable ModelCatenary ModelLoad ModelSolver ModelPolynomial
  ModelSolar ModelThermal ModelElongation ModelReload ModelSagtension ModelLocator ModelSagging
  ModelValidate SpecValidate ModelReport SpecReport ProofValidate ProofValidateLine ProofReport ProofReportLine ProofReportAll
  ProofReportModel.
Import ListNotations.
Open Scope num_scope.
Open Scope list_scope.

Section Sagger.
Context {N : Num}.

Lemma control_left_ok : forall line cs (r : Reloader N) i t index o,
  control_loop line r i t index cs = Ok o -> exists j, control_left line r i t index cs = Ok j.
Proof.
  intros line cs. induction cs as [|c cs IH]; intros r i t index o H; cbn [control_loop control_left] in *; [eauto|].
  destruct (lr_TensionHorizontal _) as [[h r']| |]; cbn [obind] in *; try discriminate.
  destruct (h =? ferr); [eauto|]. destruct (h <? t); eauto.
Qed.

Lemma failed_index : forall env (s s' : Sagger N), sa_Update env s = Ok (false, s') ->
  sa_updated s' = false /\ exists i, controlling_index s = Ok i.
Proof.
  intros env s s' H. unfold sa_Update in H. destruct (sa_updated s); [discriminate|].
  destruct (UpdateLineCableConstraintLimit env s) as [[ok s1]| |] eqn:E; cbn [obind] in H; try discriminate.
  split.
  - destruct ok.
    + destruct (UpdateCatenariesConstraintsActual _ _) as [[ok2 s2]| |]; cbn [obind] in H; try discriminate.
      injection H as -> <-. reflexivity.
    + injection H as <-. reflexivity.
  - unfold UpdateLineCableConstraintLimit in E.
    destruct (UpdateControllingConstraintIndex s) as [o| |] eqn:E2; cbn [obind] in E; try discriminate.
    unfold UpdateControllingConstraintIndex in E2. unfold controlling_index.
    destruct (deref (sa_constraints s)) as [cs| |]; cbn [obind] in *; try discriminate.
    destruct (Nat.eqb (List.length cs) 1); [eauto|].
    destruct (deref (sa_line s)) as [line| |]; cbn [obind] in *; try discriminate.
    eapply control_left_ok; eauto.
Qed.

Variable P : bool -> list Message -> Prop.
Hypothesis law : Law P.
Hypothesis drops : Drops P.

Lemma sagger_words : forall index updated, sagger_failure index updated <> ""%string.
Proof. intros index updated. unfold sagger_failure. destruct (index =? -9999)%Z; [words|]. destruct updated; words. Qed.

Lemma Sagger_fine : forall env (s : Sagger N), sfine P (Sagger_report env s) (sa_Validate env s).
Proof.
  intros env s. unfold Sagger_report, sa_Validate. cbn zeta.
  apply (sfine_value P _ _ (deref (sa_constraints s))). intros cs _.
  assert (H0 : fine P (fun m => each (fun k => part (Constraint_report k)) cs (true, m)) (forallb Constraint_Validate cs)).
  { apply (fine_step P law (each _ cs) (fun m => (true, m)) true); [apply (fine_start P law)|].
    apply (fstep_each P law). intros k _. apply fstep_part. apply (Constraint_fine P law). }
  eapply sfine_eq.
  - apply osfine_bind with (rr := fun v : bool => if v then sa_Update env s else Ok (false, s))
      (r := do v2 <- match sa_line s with None => Ok false | Some l => Strung_Validate env l end;
            Ok (forallb Constraint_Validate cs && v2)).
    + destruct (sa_line s) as [l|].
      * eapply ofine_eq; [apply (ofine_part P law); [exact H0|apply (LineCable_fine P law drops)]|].
        destruct (Strung_Validate env l); reflexivity.
      * cbn [obind]. apply ofine_ok. eapply fine_eq; [apply (fine_test P law); [exact H0|words|words]|reflexivity].
    + intros v c _ H. apply sfine_leave; [exact H|]. intros ->.
      destruct (sa_Update env s) as [[[|] s']| |] eqn:E; cbn [obind].
      * apply sfine_ok. exact H.
      * destruct (failed_index _ _ _ E) as (_ & i & ->). cbn [obind]. apply sfine_ok.
        eapply fine_eq; [apply (fine_test P law); [exact H|words|apply sagger_words]|reflexivity].
      * intros m. reflexivity.
      * intros m. reflexivity.
  - destruct (sa_line s) as [l|].
    + destruct (Strung_Validate env l) as [v2| |]; reflexivity.
    + reflexivity.
Qed.
End Sagger.

Section Corrector.
Context {N : Num}.

(** A corrector with fewer than two points is not updated. *)
Lemma few_points : forall (s : Corrector N) ps ok s', pc_points s = Some ps -> (Z.of_nat (List.length ps) <= 1)%Z ->
  pc_Update s = Ok (ok, s') -> ok = false.
Proof.
  intros s ps ok s' E L H. unfold pc_Update, UpdateClippedState in H.
  destruct (ModelThermal.deref (pc_linecable s)) as [l| |]; cbn [obind] in H; try discriminate.
  destruct (CatenaryRulingSpan (lc_payload l)) as [k| |]; cbn [obind] in H; try discriminate.
  destruct (c3_Validate k); [|cbn in H; injection H as <-; auto].
  rewrite E in H. cbn [ModelThermal.deref obind] in H. destruct ps as [|p [|q ps]]; [discriminate|cbn in H; discriminate|].
  cbn [List.length] in L. lia.
Qed.

Lemma Corrector_explained : forall env (s : Corrector N), sfine rejections_explained (Corrector_report env s) (pc_Validate env s).
Proof.
  intros env s. unfold Corrector_report, pc_Validate. cbn zeta.
  apply osfine_bind; [apply (Corrector_line_fine _ law_explained drops_explained)|].
  intros b c _ H. destruct (pc_points s) as [ps|] eqn:E.
  - destruct (Z.leb_spec (Z.of_nat (List.length ps)) 1).
    + replace (1 <? Z.of_nat (Datatypes.length ps))%Z with false by (symmetry; apply Z.ltb_ge; lia). rewrite andb_false_r.
      destruct (pc_Update s) as [[ok s']| |] eqn:U; cbn [obind]; [|intros m; auto..].
      rewrite (few_points s ps ok s' E H0 U). cbn [negb andb]. destruct H as (e & A & B). apply sfine_ok.
      exists (e ++ [mkMessage "Error updating class"%string "CABLE SAG POSITION CORRECTOR"%string]). split.
      * intros m. rewrite A. unfold test. cbn [fst snd]. rewrite push_more, more_more. reflexivity.
      * intros _. destruct e; discriminate.
    + replace (1 <? Z.of_nat (Datatypes.length ps))%Z with true by (symmetry; apply Z.ltb_lt; lia). rewrite andb_true_r.
      apply (sfine_update _ law_explained); [exact H|words|words].
  - apply (sfine_update _ law_explained); [|words|words].
    eapply fine_eq; [apply (fine_test _ law_explained); [exact H|words|words]|reflexivity].
Qed.
End Corrector.

Section Says.
Context {N : Num}.

(** What a failed update of a sagger with valid inputs says. *)
Lemma sagger_says : forall env (s s1 : Sagger N) cs l,
  sa_constraints s = Some cs -> forallb Constraint_Validate cs = true -> sa_line s = Some l -> Strung_Validate env l = Ok true ->
  sa_Update env s = Ok (false, s1) ->
  exists e d, Sagger_report env s (Some []) = Ok ((false, Some (e ++ [mkMessage d "LINE CABLE SAGGER"%string])), s1) /\
    (d = "Error updating class. Could not solve for controlling constraint index"%string \/
     d = "Error updating class. Could not solve for new constraint limit"%string).
Proof.
  intros env s s1 cs l EC VC EL VL U. unfold Sagger_report. rewrite EC, EL. cbn [ModelThermal.deref obind].
  assert (H0 : fine (fun _ _ => True) (fun m => each (fun k => part (Constraint_report k)) cs (true, m)) (forallb Constraint_Validate cs)).
  { apply (fine_step _ law_any (each _ cs) (fun m => (true, m)) true); [apply (fine_start _ law_any)|].
    apply (fstep_each _ law_any). intros k _. apply fstep_part. apply (Constraint_fine _ law_any). }
  rewrite VC in H0. assert (H1 := ofine_part _ law_any _ _ _ _ H0 (LineCable_fine _ law_any drops_any env l)). rewrite VL in H1.
  destruct H1 as (e & A & _). rewrite A. cbn [obind fst negb]. rewrite U. cbn [obind].
  destruct (failed_index _ _ _ U) as (F & i & ->). cbn [obind]. rewrite F.
  exists e, (sagger_failure i false). split.
  - unfold test. cbn [snd with_more app]. unfold push. cbn. reflexivity.
  - unfold sagger_failure. destruct (i =? -9999)%Z; [left|right]; reflexivity.
Qed.
End Says.
