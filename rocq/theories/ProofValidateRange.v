(** What the acceptance by a Validate function says about numbers that are not NaN. *)
From Coq Require Import ZArith Bool List String.
From Verif Require Import Num ModelBase ModelAlignment ModelLine ModelCable ModelLoad ModelSagtension ModelValidate SpecValidate ProofValidate.
Import ListNotations.
Open Scope num_scope.
Open Scope list_scope.

Section Range.
Context {N : Num} (ok : N -> Prop) (OL : OrdLaws N ok).
Hypothesis ok0 : ok #0.
Hypothesis ok360 : ok #360.
Hypothesis ok50 : ok #(-50).
Hypothesis okabs : forall x, ok x -> ok (fabs x).

Lemma le_iff : forall x y, ok x -> ok y -> (x <=? y) = negb (y <? x).
Proof. intros. apply (ol_le N ok OL); auto. Qed.
Lemma lt_iff : forall x y, ok x -> ok y -> (x <? y) = negb (y <=? x).
Proof. intros. rewrite (ol_le N ok OL) by auto. rewrite negb_involutive. auto. Qed.

Lemma good_fst : forall q v b m, good q v b -> fst (v m) = b.
Proof. intros q v b m (e & A & _). rewrite A. auto. Qed.

Ltac split_andb := repeat match goal with H : _ /\ _ |- _ => destruct H end.
Ltac goal_andb := rewrite ?andb_true_iff.

Lemma hw_range : forall h : Hardware N, hardware_numbers ok h -> (hw_ok h = true <-> hardware_in_range h).
Proof.
  intros h (A & B & C). unfold hw_ok, hardware_in_range. rewrite !le_iff by auto. goal_andb.
  destruct (hw_type h); cbn; intuition congruence.
Qed.

Lemma structure_range : forall s : Structure N, structure_numbers ok s ->
  (structure_ok s = true /\ no_negative_offset s <-> structure_in_range s).
Proof.
  intros s (A & B). unfold structure_ok, structure_in_range, no_negative_offset, attachment_in_range.
  rewrite lt_iff by auto. goal_andb. rewrite forallb_forall. split.
  - intros (((C & D) & E) & G). split; [|split; auto].
    + intros X. rewrite X in C. discriminate.
    + intros a Ha. split; [auto|]. rewrite le_iff by auto. auto.
  - intros (C & D & E). split; [split; [split; [|auto]|]|].
    + destruct (st_attachments s); congruence.
    + intros a Ha. rewrite <- le_iff by auto. apply E; auto.
    + intros a Ha. apply E; auto.
Qed.

Lemma line_structure_range : forall s : LineStructure N, line_structure_numbers ok s ->
  (line_structure_ok s = true /\ (forall st, ls_structure s = Some st -> no_negative_offset st) <-> line_structure_in_range s).
Proof.
  intros s (A & B & C & D & E). unfold line_structure_ok, line_structure_in_range. rewrite !le_iff by auto. goal_andb. rewrite forallb_forall.
  assert (Q : (forall x, In x (ls_hardwares s) -> match x with Some h => hw_ok h | None => true end = true) <->
              (forall h, In (Some h) (ls_hardwares s) -> hardware_in_range h)).
  { split.
    - intros H h Hh. apply hw_range; auto. apply (H (Some h) Hh).
    - intros H [h|] Hh; auto. apply hw_range; auto. }
  rewrite Q. destruct (ls_structure s) as [st|].
  - assert (R := structure_range st (E st eq_refl)). split.
    + intros (((((H1 & H2) & H3) & H4) & H5) & H6). repeat (split; [assumption|]). exists st. split; auto. apply R; auto.
    + intros (H1 & H2 & H3 & H4 & st' & H5 & H6). injection H5 as <-. apply R in H6 as [H6 H7]. repeat (split; auto).
      intros st' K. injection K as <-. auto.
  - split; [intros ((_ & H) & _); discriminate|]. intros (_ & _ & _ & _ & st & H & _). discriminate.
Qed.

Lemma point_range : forall p : AlignmentPoint N, alignment_point_numbers ok p -> (AlignmentPoint_Validate p = true <-> alignment_point_in_range p).
Proof.
  intros p (A & B & C). unfold AlignmentPoint_Validate, alignment_point_in_range. rewrite !le_iff by auto. goal_andb. intuition.
Qed.

Lemma alignment_range : forall a : list (AlignmentPoint N), Forall (alignment_point_numbers ok) a ->
  (Alignment_Validate a = true <-> Forall alignment_point_in_range a).
Proof.
  intros a H. unfold Alignment_Validate. rewrite forallb_forall, Forall_forall. rewrite Forall_forall in H.
  split; intros K p Hp; apply point_range; auto.
Qed.

Lemma weather_range : forall w : WeatherLoadCase N, weather_numbers ok w -> (WeatherLoadCase_Validate w = true <-> weather_in_range w).
Proof.
  intros w (A & B & C & D). unfold WeatherLoadCase_Validate, weather_in_range. rewrite !le_iff by auto. goal_andb. intuition.
Qed.

Lemma cable_range : forall c : Cable N, cable_numbers ok c -> (Cable_Validate c = true <-> cable_in_range c).
Proof.
  intros w (A & B & C). unfold Cable_Validate, cable_in_range. rewrite (le_iff #0 (cb_area w)), (lt_iff #0 (cb_diameter w)), (lt_iff #0 (cb_weight w)) by auto. goal_andb. intuition.
Qed.

Lemma constraint_range : forall k : Constraint N, constraint_numbers ok k -> (Constraint_Validate k = true <-> constraint_in_range k).
Proof.
  intros k (A & B). unfold Constraint_Validate, constraint_in_range, weather_valid. rewrite le_iff by auto. goal_andb.
  destruct (co_weather k) as [w|].
  - assert (Q := weather_range w (B w eq_refl)). split.
    + intros (((H1 & H2) & H3) & H4). split; [exists w; split; [auto|apply Q; auto]|].
      split; [intros X; rewrite X in H2; discriminate|]. split; auto. intros X; rewrite X in H4; discriminate.
    + intros ((w' & E & H1) & H2 & H3 & H4). injection E as <-. apply Q in H1. repeat split; auto.
      * destruct (co_condition k); auto; congruence.
      * destruct (co_type k); auto; congruence.
  - split; [intros (((H1 & _) & _) & _); discriminate|]. intros ((w & E & _) & _). discriminate.
Qed.

(** The functions with the messages *)
Lemma accepted : forall m,
  (forall h : Hardware N, hardware_numbers ok h -> (fst (Hardware_Validate h m) = true <-> hardware_in_range h)) /\
  (forall p : AlignmentPoint N, alignment_point_numbers ok p -> (fst (AlignmentPoint_report p m) = true <-> alignment_point_in_range p)) /\
  (forall a : list (AlignmentPoint N), Forall (alignment_point_numbers ok) a ->
     (fst (Alignment_report a m) = true <-> Forall alignment_point_in_range a)) /\
  (forall w : WeatherLoadCase N, weather_numbers ok w -> (fst (WeatherLoadCase_report w m) = true <-> weather_in_range w)) /\
  (forall c : Cable N, cable_numbers ok c -> (fst (Cable_report c m) = true <-> cable_in_range c)) /\
  (forall k : Constraint N, constraint_numbers ok k -> (fst (Constraint_report k m) = true <-> constraint_in_range k)) /\
  (forall s : Structure N, structure_numbers ok s ->
     (fst (Structure_Validate s m) = true /\ no_negative_offset s <-> structure_in_range s)) /\
  (forall s : LineStructure N, line_structure_numbers ok s ->
     (fst (LineStructure_Validate s m) = true /\ (forall st, ls_structure s = Some st -> no_negative_offset st)
      <-> line_structure_in_range s)).
Proof.
  intros m. refine (conj _ (conj _ (conj _ (conj _ (conj _ (conj _ (conj _ _))))))); intros x Hx.
  - rewrite (good_fst _ _ _ m (Hardware_good x)). apply hw_range; auto.
  - rewrite (good_fst _ _ _ m (AlignmentPoint_good x)). apply point_range; auto.
  - rewrite (good_fst _ _ _ m (Alignment_good x)). apply alignment_range; auto.
  - rewrite (good_fst _ _ _ m (Weather_good x)). apply weather_range; auto.
  - rewrite (good_fst _ _ _ m (Cable_good x)). apply cable_range; auto.
  - rewrite (good_fst _ _ _ m (Constraint_good x)). apply constraint_range; auto.
  - rewrite (good_fst _ _ _ m (Structure_good x)). apply structure_range; auto.
  - rewrite (good_fst _ _ _ m (LineStructure_good x)). apply line_structure_range; auto.
Qed.
End Range.
