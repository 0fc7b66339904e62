(** Proofs about the validation functions and their messages. *)
From Coq Require Import ZArith Bool List String.
From Verif Require Import Num ModelBase ModelAlignment ModelLine ModelCable ModelCatenary ModelLoad ModelSagtension
  ModelValidate SpecValidate.
Import ListNotations.
Open Scope num_scope.
Open Scope list_scope.

(** ** Steps of a validation *)

Definition adds (f : Check -> Check) (ok : bool) (extra : list Message) : Prop :=
  forall c, f c = (fst c && ok, with_more extra (snd c)).

Lemma more_nil : forall m, with_more [] m = m.
Proof. intros [l|]; simpl; [rewrite app_nil_r|]; auto. Qed.

Lemma more_more : forall a b m, with_more b (with_more a m) = with_more (a ++ b) m.
Proof. intros a b [l|]; simpl; [rewrite app_assoc|]; auto. Qed.

Lemma more_nil_inv : forall a b, (forall m, with_more a m = with_more b m) -> a = b.
Proof. intros a b H. specialize (H (Some [])). simpl in H. congruence. Qed.

Definition said (t d : string) (failed : bool) : list Message := if failed then [mkMessage d t] else [].

Lemma adds_test : forall t b d, adds (test t b d) (negb b) (said t d b).
Proof.
  intros t b d [ok m]. unfold test, said. destruct b; simpl.
  - rewrite andb_false_r. f_equal. 
  - rewrite andb_true_r, more_nil. auto.
Qed.

Lemma adds_part : forall v ok e, answers v ok e -> adds (part v) ok e.
Proof.
  intros v ok e H [b m]. unfold part. cbn [fst snd]. rewrite H. destruct ok; simpl.
  - rewrite andb_true_r; auto.
  - rewrite andb_false_r; auto.
Qed.

Lemma adds_dropped : forall v ok e, answers v ok e -> adds (dropped v) true e.
Proof. intros v ok e H [b m]. unfold dropped. cbn [fst snd]. rewrite H, andb_true_r. auto. Qed.

Lemma adds_id : adds (fun c => c) true [].
Proof. intros [b m]. cbn [fst snd]. rewrite andb_true_r, more_nil. auto. Qed.

Lemma adds_then : forall f g o1 e1 o2 e2, adds f o1 e1 -> adds g o2 e2 ->
  adds (fun c => g (f c)) (o1 && o2) (e1 ++ e2).
Proof.
  intros f g o1 e1 o2 e2 H1 H2 c. cbn beta. rewrite H2, H1. cbn [fst snd]. rewrite more_more, andb_assoc. auto.
Qed.

Lemma adds_each : forall A (f : A -> Check -> Check) okf ef l, (forall a, In a l -> adds (f a) (okf a) (ef a)) ->
  adds (each f l) (forallb okf l) (flat_map ef l).
Proof.
  intros A f okf ef l. induction l as [|a l IH]; intros H; [exact adds_id|].
  exact (adds_then (f a) (each f l) _ _ _ _ (H a (or_introl eq_refl)) (IH (fun b Hb => H b (or_intror Hb)))).
Qed.

Lemma answers_adds : forall f ok e, adds f ok e -> answers (fun m => f (true, m)) ok e.
Proof. intros f ok e H m. rewrite H. auto. Qed.

Lemma answers_eq : forall v w ok e, (forall m, v m = w m) -> answers w ok e -> answers v ok e.
Proof. intros v w ok e E H m. rewrite E. apply H. Qed.

(** A validation that returns early. *)
Lemma answers_early : forall v w o1 e1 o2 e2, answers v o1 e1 -> answers w o2 e2 ->
  answers (fun m => let c := v m in if negb (fst c) then c else part w c)
    (if o1 then o2 else false) (if o1 then e1 ++ e2 else e1).
Proof.
  intros v w o1 e1 o2 e2 H1 H2 m. cbn zeta. specialize (H1 m). destruct (v m) as [b m'] eqn:E.
  injection H1 as -> ->. cbn [fst]. destruct o1; cbn [negb]; auto.
  rewrite (adds_part w o2 e2 H2). cbn [fst snd]. rewrite <- more_more. auto.
Qed.

Lemma answers_unique : forall v o1 e1 o2 e2, answers v o1 e1 -> answers v o2 e2 -> o1 = o2 /\ e1 = e2.
Proof.
  intros v o1 e1 o2 e2 H1 H2. specialize (H1 (Some [])). specialize (H2 (Some [])). rewrite H1 in H2.
  simpl in H2. inversion H2; auto.
Qed.

(** ** The shape of the answers *)

(** Rejections are explained, and [q] tells that nothing is said otherwise. *)
Definition shape (q : bool) (ok : bool) (e : list Message) : Prop :=
  (ok = false -> e <> []) /\ (q = true -> e <> [] -> ok = false).

Lemma shape_said : forall q t d b, shape q (negb b) (said t d b).
Proof. intros q t d [|]; split; simpl; try discriminate; intros; congruence. Qed.

Lemma shape_nil : forall q, shape q true [].
Proof. split; [discriminate|]. congruence. Qed.

Lemma app_not_nil : forall A (a b : list A), a ++ b <> [] <-> a <> [] \/ b <> [].
Proof. intros A [|x a] b; simpl; split; intros H; try (right; congruence); try (left; congruence); try discriminate; destruct H; congruence. Qed.

Lemma shape_app : forall q1 q2 o1 e1 o2 e2, shape q1 o1 e1 -> shape q2 o2 e2 -> shape (q1 && q2) (o1 && o2) (e1 ++ e2).
Proof.
  intros q1 q2 o1 e1 o2 e2 (A & B) (C & D). split.
  - intros H. apply app_not_nil. apply andb_false_iff in H as [H|H]; auto.
  - intros H K. apply andb_true_iff in H as [H1 H2]. apply andb_false_iff.
    apply app_not_nil in K as [K|K]; [left; auto|right; auto].
Qed.

Lemma shape_each : forall q A (okf : A -> bool) ef l, (forall a, In a l -> shape q (okf a) (ef a)) ->
  shape q (forallb okf l) (flat_map ef l).
Proof.
  intros q A okf ef l. induction l as [|a l IH]; intros H; [apply shape_nil|].
  cbn [forallb flat_map]. replace q with (q && q) by (destruct q; auto). apply shape_app; [|apply IH]; intros; apply H; simpl; auto.
Qed.

Lemma shape_early : forall q1 q2 o1 e1 o2 e2, shape q1 o1 e1 -> shape q2 o2 e2 ->
  shape (q1 && q2) (if o1 then o2 else false) (if o1 then e1 ++ e2 else e1).
Proof.
  intros q1 q2 o1 e1 o2 e2 A B. destruct o1.
  - exact (shape_app q1 q2 true e1 o2 e2 A B).
  - split; [apply A|]. auto.
Qed.

Lemma shape_weak : forall q ok e, shape true ok e -> shape q ok e.
Proof. intros q ok e (A & B). split; auto. Qed.
Lemma shape_loud : forall q ok e, shape q ok e -> shape false ok e.
Proof. intros q ok e (A & _). split; auto. discriminate. Qed.

(** ** The functions *)

Section Functions.
Context {N : Num}.

Definition good (q : bool) (v : Messages -> Check) (ok : bool) : Prop := exists e, answers v ok e /\ shape q ok e.
Definition step (q : bool) (f : Check -> Check) (ok : bool) : Prop := exists e, adds f ok e /\ shape q ok e.

Lemma step_test : forall t b d, step true (test t b d) (negb b).
Proof. intros t b d. eexists. split; [apply adds_test|apply shape_said]. Qed.

Lemma step_id : step true (fun c => c) true.
Proof. exists []. split; [apply adds_id|apply shape_nil]. Qed.

Lemma step_part : forall q v ok, good q v ok -> step q (part v) ok.
Proof. intros q v ok (e & A & B). exists e. split; [apply adds_part|]; auto. Qed.

Lemma step_dropped : forall q v ok, good q v ok -> step false (dropped v) true.
Proof. intros q v ok (e & A & B). exists e. split; [eapply adds_dropped; eauto|]. split; discriminate. Qed.

Lemma step_then : forall q f g o1 o2, step q f o1 -> step q g o2 -> step q (fun c => g (f c)) (o1 && o2).
Proof.
  intros q f g o1 o2 (e1 & A & B) (e2 & C & D). exists (e1 ++ e2)%list. split; [apply adds_then; auto|].
  replace q with (q && q) by (destruct q; auto). apply shape_app; auto.
Qed.

Lemma step_each : forall q A (f : A -> Check -> Check) okf l, (forall a, step q (f a) (okf a)) ->
  step q (each f l) (forallb okf l).
Proof.
  intros q A f okf l H. induction l as [|a l IH].
  - cbn [each forallb]. exists []. split; [apply adds_id|apply shape_nil].
  - cbn [forallb]. exact (step_then q (f a) (each f l) _ _ (H a) IH).
Qed.

Lemma step_good : forall q f ok, step q f ok -> good q (fun m => f (true, m)) ok.
Proof. intros q f ok (e & A & B). exists e. split; [apply (answers_adds f)|]; auto. Qed.

Lemma good_early : forall q v w o1 o2, good q v o1 -> good q w o2 ->
  good q (fun m => let c := v m in if negb (fst c) then c else part w c) (o1 && o2).
Proof.
  intros q v w o1 o2 (e1 & A & B) (e2 & C & D).
  exists (if o1 then e1 ++ e2 else e1)%list. split.
  - replace (o1 && o2) with (if o1 then o2 else false) by (destruct o1; auto). apply answers_early; auto.
  - replace (o1 && o2) with (if o1 then o2 else false) by (destruct o1; auto).
    replace q with (q && q) by (destruct q; auto). apply shape_early; auto.
Qed.

Lemma good_loud : forall q v ok, good q v ok -> good false v ok.
Proof. intros q v ok (e & A & B). exists e. split; auto. eapply shape_loud; eauto. Qed.
Lemma step_loud : forall q v ok, step q v ok -> step false v ok.
Proof. intros q v ok (e & A & B). exists e. split; auto. eapply shape_loud; eauto. Qed.

Lemma good_eq : forall q v o1 o2, good q v o1 -> o1 = o2 -> good q v o2.
Proof. intros; subst; auto. Qed.

(** ** A validation step by step *)

Lemma good_start : forall q, good q (fun m => (true, m)) true.
Proof. intros q. exists []. split; [intros m; rewrite more_nil; auto|apply shape_nil]. Qed.

Lemma good_step : forall q f v o1 o2, good q v o1 -> step q f o2 -> good q (fun m => f (v m)) (o1 && o2).
Proof.
  intros q f v o1 o2 (e1 & A & B) (e2 & C & D). exists (e1 ++ e2). split.
  - intros m. rewrite C, (A m). cbn [fst snd]. rewrite more_more. auto.
  - replace q with (q && q) by (destruct q; auto). apply shape_app; auto.
Qed.

Lemma step_weak : forall q f ok, step true f ok -> step q f ok.
Proof. intros q f ok (e & A & B). exists e. split; auto. apply shape_weak; auto. Qed.

Lemma good_test : forall q v o t b d, good q v o -> good q (fun m => test t b d (v m)) (o && negb b).
Proof. intros. apply (good_step q (test t b d)); auto. apply step_weak, step_test. Qed.

Lemma good_part : forall q v w o1 o2, good q v o1 -> good q w o2 -> good q (fun m => part w (v m)) (o1 && o2).
Proof. intros. apply (good_step q (part w)); auto. apply step_part; auto. Qed.

Lemma good_each : forall q A (f : A -> Check -> Check) okf l v o, good q v o -> (forall a, step q (f a) (okf a)) ->
  good q (fun m => each f l (v m)) (o && forallb okf l).
Proof. intros. apply (good_step q (each f l)); auto. apply step_each; auto. Qed.

Lemma good_dropped : forall v w o1 o2, good false v o1 -> good false w o2 -> good false (fun m => dropped w (v m)) (o1 && true).
Proof. intros. apply (good_step false (dropped w)); auto. eapply step_dropped; eauto. Qed.

(** A dropped validation that has no messages. *)
Lemma good_silent : forall q v w o1, good q v o1 -> (forall m, w m = (true, m)) -> good q (fun m => dropped w (v m)) (o1 && true).
Proof.
  intros q v w o1 H E. apply (good_step q (dropped w)); auto. exists []. split; [|apply shape_nil].
  intros [b m]. unfold dropped. rewrite E. cbn [fst snd]. rewrite more_nil, andb_true_r. auto.
Qed.

Lemma good_pointed : forall q A t d (p : option A) w okw v o, good q v o -> (forall a, good q (w a) (okw a)) ->
  good q (fun m => pointed t d p w (v m)) (o && match p with Some a => okw a | None => false end).
Proof.
  intros q A t d [a|] w okw v o H K; unfold pointed.
  - apply good_part; auto.
  - exact (good_test q v o t true d H).
Qed.

Definition hw_ok (h : Hardware N) : bool :=
  negb (hw_area_cross_section h <? #0) && negb (hw_length h <? #0)
  && negb (match hw_type h with HTNull => true | _ => false end) && negb (hw_weight h <? #0).

Ltac reduce := cbn zeta; repeat (first [apply good_start | apply good_test | apply good_pointed; intros]).

Lemma Hardware_good : forall h : Hardware N, good true (Hardware_Validate h) (hw_ok h).
Proof. intros h. unfold Hardware_Validate. eapply good_eq; [reduce|reflexivity]. Qed.

Lemma Attachment_good : forall a : StructureAttachment N, good true (StructureAttachment_Validate a) (negb (sa_offset_vertical_top a <? #0)).
Proof. intros a. unfold StructureAttachment_Validate. eapply good_eq; [reduce|reflexivity]. Qed.

Definition structure_ok (s : Structure N) : bool :=
  match st_attachments s with [] => false | _ => true end
  && negb (st_height s <=? #0) && forallb (fun a => negb (st_height s <? sa_offset_vertical_top a)) (st_attachments s).

Lemma Structure_good : forall s : Structure N, good false (Structure_Validate s) (structure_ok s).
Proof.
  intros s. unfold Structure_Validate. cbn zeta. unfold structure_ok.
  apply good_each; [|intros a; apply step_weak, step_test].
  apply good_test. destruct (st_attachments s) as [|a l].
  - exact (good_test false _ true _ true _ (good_start false)).
  - eapply good_eq; [apply (good_each false _ _ (fun _ => true)); [apply good_start|]|].
    + intros b. eapply step_dropped. apply Attachment_good.
    + cbn [andb]. apply forallb_forall. auto.
Qed.

Definition line_structure_ok (s : LineStructure N) : bool :=
  forallb (fun h => match h with None => true | Some h => hw_ok h end) (ls_hardwares s)
  && negb (ls_height_adjustment s <? #0) && negb (#360 <? fabs (ls_rotation s)) && negb (ls_station s <? #0)
  && match ls_structure s with None => false | Some st => structure_ok st end.

Lemma LineStructure_good : forall s : LineStructure N, good false (LineStructure_Validate s) (line_structure_ok s).
Proof.
  intros s. unfold LineStructure_Validate. cbn zeta. unfold line_structure_ok.
  apply (good_pointed false _ "LINE STRUCTURE" "Invalid structure" (ls_structure s) Structure_Validate structure_ok);
    [|apply Structure_good].
  do 3 apply good_test. apply (good_each false _ _ (fun h => match h with None => true | Some h => hw_ok h end) _ _ true); [apply good_start|].
  intros [h|]; [|apply step_weak, step_id]. apply step_part. eapply good_loud. apply Hardware_good.
Qed.

Lemma AlignmentPoint_good : forall p : AlignmentPoint N, good true (AlignmentPoint_report p) (AlignmentPoint_Validate p).
Proof. intros p. unfold AlignmentPoint_report. eapply good_eq; [reduce|reflexivity]. Qed.

Lemma Alignment_good : forall a : list (AlignmentPoint N), good true (Alignment_report a) (Alignment_Validate a).
Proof.
  intros a. unfold Alignment_report, Alignment_Validate.
  apply (good_each true _ _ AlignmentPoint_Validate _ _ true); [apply good_start|].
  intros p. apply step_part, AlignmentPoint_good.
Qed.

Lemma Cable_good : forall c : Cable N, good true (Cable_report c) (Cable_Validate c).
Proof.
  intros c. unfold Cable_report. cbn zeta. eapply good_eq.
  - do 2 apply good_test. do 2 (apply good_silent; [|reflexivity]). apply good_test, good_start.
  - unfold Cable_Validate. rewrite !andb_true_r. reflexivity.
Qed.

Lemma Weather_good : forall w : WeatherLoadCase N, good true (WeatherLoadCase_report w) (WeatherLoadCase_Validate w).
Proof. intros w. unfold WeatherLoadCase_report. eapply good_eq; [reduce|reflexivity]. Qed.

Lemma Constraint_good : forall k : Constraint N, good true (Constraint_report k) (Constraint_Validate k).
Proof.
  intros k. unfold Constraint_report. cbn zeta. eapply good_eq.
  - do 3 apply good_test. apply good_pointed; [apply good_start|apply Weather_good].
  - unfold Constraint_Validate, weather_valid. cbn [andb]. rewrite !negb_involutive. destruct (co_weather k); reflexivity.
Qed.

Lemma Catenary2d_good : forall k : Catenary2d N, good true (Catenary2d_report k) (c2_Validate k).
Proof.
  intros k. unfold Catenary2d_report. cbn zeta. eapply good_eq.
  - apply good_early; reduce.
  - unfold c2_Validate, c2_ValidateCurveAndSpacing. cbn [andb].
    destruct (c2_tension k <=? #0), (c2_weight k <=? #0), (v2x (c2_spacing k) <=? #0),
      (#10000 <? fabs (v2y (c2_spacing k))), (#2000 <=? fabs (v2y (c2_spacing k))); reflexivity.
Qed.

Lemma Catenary3d_good : forall k : Catenary3d N, good true (Catenary3d_report k) (c3_Validate k).
Proof.
  intros k. unfold Catenary3d_report. cbn zeta. eapply good_eq.
  - apply good_early; [reduce|apply Catenary2d_good].
  - unfold c3_Validate, c3_inputs_valid. cbn [andb].
    destruct (v3x (c3_spacing k) <=? #0), (v3y (c3_spacing k) =? #0), (#10000 <? fabs (v3z (c3_spacing k))),
      (#2000 <=? fabs (v3z (c3_spacing k))), (v3x (c3_weight k) =? #0), (v3y (c3_weight k) <? #0), (v3z (c3_weight k) <=? #0); reflexivity.
Qed.

Lemma Stringing_good : forall s : Stringing N, good true (Stringing_report s) (Stringing_inputs_valid s).
Proof.
  intros s. unfold Stringing_report. cbn zeta. eapply good_eq.
  - apply good_pointed; [|apply Weather_good]. apply good_pointed; [|apply Weather_good].
    do 3 apply good_test. apply good_part; [|apply Constraint_good]. apply good_pointed; [apply good_start|apply Cable_good].
  - unfold Stringing_inputs_valid, attachments_valid, weather_valid. rewrite negb_involutive, !andb_assoc.
    destruct (sr_cable s), (sr_creep s), (sr_load s); reflexivity.
Qed.
End Functions.
