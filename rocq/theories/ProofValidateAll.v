(** A line is valid exactly when its parts are; the laws of all Validate functions of a line
    put together. *)
From Coq Require Import ZArith Bool List String.
From Verif Require Import Num ModelBase ModelAlignment ModelLine ModelCable ModelCatenary ModelLoad ModelSagtension
  ModelValidate SpecValidate ProofValidate ProofValidateLine ProofValidateRange.
Import ListNotations.
Open Scope num_scope.
Open Scope list_scope.

Section All.
Context {N : Num}.

(** ** The parts of a line *)
Lemma cables_exact : forall (env : Env N) cables c d, LineCables_loop env cables c = Ok d ->
  (fst d = true <-> fst c = true /\ Forall (fun l => exists m, LineCable_report env l None = Ok (true, m)) cables).
Proof.
  intros env cables. induction cables as [|l cables IH]; intros c d H; cbn [LineCables_loop] in H.
  - injection H as <-. intuition.
  - destruct (LineCable_answers env l) as (r & A & _). rewrite A in H. destruct r as [[b e]| |]; try discriminate.
    cbn [obind fst snd] in H. apply IH in H. cbn [fst] in H. rewrite H. assert (A0 := A None). cbn beta in A0. split.
    + intros [H1 H2]. destruct b; [|discriminate]. split; [exact H1|]. constructor; auto. eauto.
    + intros [H1 H2]. inversion H2 as [|? ? [m H3] H4]; subst. rewrite A0 in H3. destruct b; [auto|discriminate].
Qed.

Lemma line_exact : forall (l l' : Line N (Stringing N)) m ok m', Line_report l m = (l', Ok (ok, m')) ->
  (ok = true <->
     fst (Alignment_report (tl_alignment l) None) = true /\
     Forall (fun n => fst (LineStructure_Validate (snd n) None) = true) (tl_line_structures l) /\
     Forall (fun c => exists e, LineCable_report (tl_line_structures l) c None = Ok (true, e)) (tl_line_cables l)).
Proof.
  intros l l' m ok m' H. unfold Line_report in H.
  destruct (Line_parts l m) as [c| |] eqn:E; try discriminate. assert (U := Update_true _ l).
  destruct (Update l) as [l1 [u| |]]; try discriminate. cbn [snd] in U. destruct u; [|congruence].
  cbn in H. injection H as _ ->. unfold Line_parts in E. cbn zeta in E. apply cables_exact in E. cbn [fst] in E. rewrite E. clear E U.
  assert (G : good false (fun m => each (fun s => part (LineStructure_Validate (snd s))) (tl_line_structures l)
                 (part (Alignment_report (tl_alignment l)) (true, m)))
      (true && Alignment_Validate (tl_alignment l) && forallb (fun s => line_structure_ok (snd s)) (tl_line_structures l))).
  { apply good_each; [|intros s; apply step_part, LineStructure_good].
    apply good_part; [apply good_start|]. eapply good_loud. apply Alignment_good. }
  apply (good_fst _ _ _ m) in G. rewrite G. cbn [andb]. rewrite andb_true_iff, forallb_forall, !Forall_forall.
  rewrite (good_fst _ _ _ None (Alignment_good (tl_alignment l))).
  assert (Q : (forall x, In x (tl_line_structures l) -> line_structure_ok (snd x) = true) <->
     (forall x, In x (tl_line_structures l) -> fst (LineStructure_Validate (snd x) None) = true)).
  { split; intros K x Hx; specialize (K x Hx); rewrite (good_fst _ _ _ None (LineStructure_good (snd x))) in *; auto. }
  rewrite Q. tauto.
Qed.

(** ** All functions *)
Lemma good_answers : forall q v b, good q v b -> exists ok e, answers v ok e.
Proof. intros q v b (e & A & _). eauto. Qed.
Lemma good_explained : forall q v b ok e, good q v b -> answers v ok e -> rejections_explained ok e.
Proof.
  intros q v b ok e (e' & A & B & _) H. destruct (answers_unique _ _ _ _ _ A H) as [-> ->]. exact B.
Qed.
Lemma good_quiet : forall v b ok e, good true v b -> answers v ok e -> messages_are_rejections ok e.
Proof.
  intros v b ok e (e' & A & _ & B) H. destruct (answers_unique _ _ _ _ _ A H) as [-> ->]. exact (B eq_refl).
Qed.

Lemma all_answer :
  (forall h : Hardware N, exists ok e, answers (Hardware_Validate h) ok e) /\
  (forall a : StructureAttachment N, exists ok e, answers (StructureAttachment_Validate a) ok e) /\
  (forall s : Structure N, exists ok e, answers (Structure_Validate s) ok e) /\
  (forall s : LineStructure N, exists ok e, answers (LineStructure_Validate s) ok e) /\
  (forall p : AlignmentPoint N, exists ok e, answers (AlignmentPoint_report p) ok e) /\
  (forall a : list (AlignmentPoint N), exists ok e, answers (Alignment_report a) ok e) /\
  (forall c : Cable N, exists ok e, answers (Cable_report c) ok e) /\
  (forall w : WeatherLoadCase N, exists ok e, answers (WeatherLoadCase_report w) ok e) /\
  (forall k : Constraint N, exists ok e, answers (Constraint_report k) ok e) /\
  (forall k : Catenary2d N, exists ok e, answers (Catenary2d_report k) ok e) /\
  (forall k : Catenary3d N, exists ok e, answers (Catenary3d_report k) ok e) /\
  (forall (env : Env N) (l : Strung N), exists r, answers_or_fails (LineCable_report env l) r) /\
  (forall l : Line N (Stringing N), exists l' r, answers_or_fails (fun m => snd (Line_report l m)) r /\ forall m, fst (Line_report l m) = l').
Proof.
  refine (conj _ (conj _ (conj _ (conj _ (conj _ (conj _ (conj _ (conj _ (conj _ (conj _ (conj _ (conj _ _)))))))))))).
  - intros x; eapply good_answers, Hardware_good.
  - intros x; eapply good_answers, Attachment_good.
  - intros x; eapply good_answers, Structure_good.
  - intros x; eapply good_answers, LineStructure_good.
  - intros x; eapply good_answers, AlignmentPoint_good.
  - intros x; eapply good_answers, Alignment_good.
  - intros x; eapply good_answers, Cable_good.
  - intros x; eapply good_answers, Weather_good.
  - intros x; eapply good_answers, Constraint_good.
  - intros x; eapply good_answers, Catenary2d_good.
  - intros x; eapply good_answers, Catenary3d_good.
  - intros env x. destruct (LineCable_answers env x) as (r & A & _). eauto.
  - intros x. destruct (Line_answers x) as (r & parts & A & _). exists (fst (Line_Validate x parts)), r. split.
    + intros m. rewrite A. reflexivity.
    + intros m. rewrite A. reflexivity.
Qed.

Lemma all_explained :
  (forall (h : Hardware N) ok e, answers (Hardware_Validate h) ok e -> rejections_explained ok e) /\
  (forall (a : StructureAttachment N) ok e, answers (StructureAttachment_Validate a) ok e -> rejections_explained ok e) /\
  (forall (s : Structure N) ok e, answers (Structure_Validate s) ok e -> rejections_explained ok e) /\
  (forall (s : LineStructure N) ok e, answers (LineStructure_Validate s) ok e -> rejections_explained ok e) /\
  (forall (p : AlignmentPoint N) ok e, answers (AlignmentPoint_report p) ok e -> rejections_explained ok e) /\
  (forall (a : list (AlignmentPoint N)) ok e, answers (Alignment_report a) ok e -> rejections_explained ok e) /\
  (forall (c : Cable N) ok e, answers (Cable_report c) ok e -> rejections_explained ok e) /\
  (forall (w : WeatherLoadCase N) ok e, answers (WeatherLoadCase_report w) ok e -> rejections_explained ok e) /\
  (forall (k : Constraint N) ok e, answers (Constraint_report k) ok e -> rejections_explained ok e) /\
  (forall (k : Catenary2d N) ok e, answers (Catenary2d_report k) ok e -> rejections_explained ok e) /\
  (forall (k : Catenary3d N) ok e, answers (Catenary3d_report k) ok e -> rejections_explained ok e) /\
  (forall (env : Env N) (l : Strung N) ok e, LineCable_report env l (Some []) = Ok (ok, Some e) -> rejections_explained ok e) /\
  (forall (l l' : Line N (Stringing N)) ok e, Line_report l (Some []) = (l', Ok (ok, Some e)) -> rejections_explained ok e).
Proof.
  refine (conj _ (conj _ (conj _ (conj _ (conj _ (conj _ (conj _ (conj _ (conj _ (conj _ (conj _ (conj _ _)))))))))))).
  - intros x ok e; eapply good_explained, Hardware_good.
  - intros x ok e; eapply good_explained, Attachment_good.
  - intros x ok e; eapply good_explained, Structure_good.
  - intros x ok e; eapply good_explained, LineStructure_good.
  - intros x ok e; eapply good_explained, AlignmentPoint_good.
  - intros x ok e; eapply good_explained, Alignment_good.
  - intros x ok e; eapply good_explained, Cable_good.
  - intros x ok e; eapply good_explained, Weather_good.
  - intros x ok e; eapply good_explained, Constraint_good.
  - intros x ok e; eapply good_explained, Catenary2d_good.
  - intros x ok e; eapply good_explained, Catenary3d_good.
  - intros env l ok e H. destruct (LineCable_answers env l) as (r & A & _ & B). rewrite A in H.
    destruct r as [[b e']| |]; try discriminate. cbn in H. injection H as -> ->. intros ->. apply B. reflexivity.
  - intros l l' ok e H. destruct (Line_answers l) as (r & parts & A & _ & B & _). rewrite A in H.
    destruct r as [[b e']| |]; try discriminate. cbn in H. injection H as _ -> ->. intros ->. apply B. reflexivity.
Qed.

Lemma all_quiet :
  (forall (h : Hardware N) ok e, answers (Hardware_Validate h) ok e -> messages_are_rejections ok e) /\
  (forall (a : StructureAttachment N) ok e, answers (StructureAttachment_Validate a) ok e -> messages_are_rejections ok e) /\
  (forall (p : AlignmentPoint N) ok e, answers (AlignmentPoint_report p) ok e -> messages_are_rejections ok e) /\
  (forall (a : list (AlignmentPoint N)) ok e, answers (Alignment_report a) ok e -> messages_are_rejections ok e) /\
  (forall (c : Cable N) ok e, answers (Cable_report c) ok e -> messages_are_rejections ok e) /\
  (forall (w : WeatherLoadCase N) ok e, answers (WeatherLoadCase_report w) ok e -> messages_are_rejections ok e) /\
  (forall (k : Constraint N) ok e, answers (Constraint_report k) ok e -> messages_are_rejections ok e) /\
  (forall (k : Catenary2d N) ok e, answers (Catenary2d_report k) ok e -> messages_are_rejections ok e) /\
  (forall (k : Catenary3d N) ok e, answers (Catenary3d_report k) ok e -> messages_are_rejections ok e).
Proof.
  refine (conj _ (conj _ (conj _ (conj _ (conj _ (conj _ (conj _ (conj _ _)))))))); intros x ok e.
  - eapply good_quiet, Hardware_good.
  - eapply good_quiet, Attachment_good.
  - eapply good_quiet, AlignmentPoint_good.
  - eapply good_quiet, Alignment_good.
  - eapply good_quiet, Cable_good.
  - eapply good_quiet, Weather_good.
  - eapply good_quiet, Constraint_good.
  - eapply good_quiet, Catenary2d_good.
  - eapply good_quiet, Catenary3d_good.
Qed.
End All.
