(** The cases used by the theorems about validation. *)
From Coq Require Import ZArith Bool List String Lia.
From Flocq Require Import IEEE754.BinarySingleNaN.
From Verif Require Import Num NumFacts ModelBase ModelAlignment ModelLine ModelCable ModelCatenary ModelLoad ModelSagtension
  SpecLine SpecTransmission SampleLine SampleMath ProofLineRefuted ModelValidate SpecValidate ProofValidate ProofValidateLine
  ProofValidateCoord ProofValidateSafe ProofValidateRange ProofValidateAll SampleValidate.
Import ListNotations.
Open Scope num_scope.
Open Scope list_scope.

(** The validation of a reachable line refreshes the coordinates. *)
Lemma report_refreshes : forall (N : Num) (ok : N -> Prop) (l l' l0 : Line N (Stringing N)) m c,
  reachable ok l -> Line_report l m = (l', Ok c) ->
  fresh_line l0 -> tl_alignment l0 = tl_alignment l -> tl_origin l0 = tl_origin l -> structures_of l0 = structures_of l ->
  snd (PointsXyzAlignment l') = snd (PointsXyzAlignment l0) /\
  snd (PointsXyzLineStructures l') = snd (PointsXyzLineStructures l0) /\
  (forall x, snd (PointXyzAlignment l' x) = snd (PointXyzAlignment l0 x)) /\
  (forall i, snd (PointXyzLineStructure l' i) = snd (PointXyzLineStructure l0 i)) /\
  (forall i j, snd (PointXyzLineStructureAttachment l' i j) = snd (PointXyzLineStructureAttachment l0 i j)).
Proof.
  intros N ok l l' l0 m [b m'] HR H F A B C. destruct (Line_answers l) as (r & parts & D & E & _).
  rewrite D in H. destruct r as [[v e]| |]; try discriminate. injection H as H _ _.
  apply (validate_answers ok l parts l' v l0); auto. destruct (Line_Validate l parts); cbn in *; congruence.
Qed.

Section Case.
Variable lm : Libm.
Local Notation Nm := (B64 lm).

(** ** Ranges of binary64 numbers *)
Lemma range64 : forall m,
  (forall h : Hardware Nm, hardware_numbers (N := Nm) num64 h -> (fst (Hardware_Validate h m) = true <-> hardware_in_range h)) /\
  (forall p : AlignmentPoint Nm, alignment_point_numbers (N := Nm) num64 p ->
     (fst (AlignmentPoint_report p m) = true <-> alignment_point_in_range p)) /\
  (forall a : list (AlignmentPoint Nm), Forall (alignment_point_numbers (N := Nm) num64) a ->
     (fst (Alignment_report a m) = true <-> Forall alignment_point_in_range a)) /\
  (forall w : WeatherLoadCase Nm, weather_numbers (N := Nm) num64 w -> (fst (WeatherLoadCase_report w m) = true <-> weather_in_range w)) /\
  (forall c : Cable Nm, cable_numbers (N := Nm) num64 c -> (fst (Cable_report c m) = true <-> cable_in_range c)) /\
  (forall k : Constraint Nm, constraint_numbers (N := Nm) num64 k -> (fst (Constraint_report k m) = true <-> constraint_in_range k)) /\
  (forall s : Structure Nm, structure_numbers (N := Nm) num64 s ->
     (fst (Structure_Validate s m) = true /\ no_negative_offset s <-> structure_in_range s)) /\
  (forall s : LineStructure Nm, line_structure_numbers (N := Nm) num64 s ->
     (fst (LineStructure_Validate s m) = true /\ (forall st, ls_structure s = Some st -> no_negative_offset st)
      <-> line_structure_in_range s)).
Proof.
  intros m. apply (accepted (N := Nm) num64 (B64_ord lm)); try (vm_compute; reflexivity).
  intros x Hx. destruct x; cbn in *; auto.
Qed.

Lemma range_case :
  hardware_numbers (N := Nm) num64 (s_hw lm) /\ hardware_in_range (s_hw lm) /\
  hardware_numbers (N := Nm) num64 (Hardware_default (N := Nm)) /\ ~ hardware_in_range (Hardware_default (N := Nm)) /\
  structure_numbers (N := Nm) num64 (s_st lm 2) /\ structure_in_range (s_st lm 2).
Proof.
  split; [split; [|split]; vm_compute; reflexivity|].
  split; [split; [|split; [|split]]; try (vm_compute; reflexivity); discriminate|].
  split; [split; [|split]; vm_compute; reflexivity|].
  split; [intros (H & _); vm_compute in H; discriminate|].
  split; [split; [vm_compute; reflexivity|]|].
  - intros a [<-|[<-|[]]]; vm_compute; reflexivity.
  - split; [discriminate|split; [vm_compute; reflexivity|]]. intros a [<-|[<-|[]]]; split; vm_compute; reflexivity.
Qed.

Lemma range_fails :
  (exists h : Hardware Nm, Hardware_Validate h (Some []) = (true, Some []) /\ ~ hardware_in_range h) /\
  (exists p : AlignmentPoint Nm, AlignmentPoint_report p (Some []) = (true, Some []) /\ ~ alignment_point_in_range p) /\
  (exists w : WeatherLoadCase Nm, WeatherLoadCase_report w (Some []) = (true, Some []) /\ ~ weather_in_range w) /\
  (exists s : Structure Nm, Structure_Validate s (Some []) = (true, Some []) /\ ~ structure_in_range s) /\
  (exists s : Structure Nm, structure_numbers (N := Nm) num64 s /\ fst (Structure_Validate s None) = true /\ ~ structure_in_range s).
Proof.
  split; [|split; [|split; [|split]]].
  - exists (v_nan_hardware lm). split; [vm_compute; reflexivity|]. intros (H & _). vm_compute in H. discriminate.
  - exists (v_nan_point lm). split; [vm_compute; reflexivity|]. intros (H & _). vm_compute in H. discriminate.
  - exists (v_nan_weather lm). split; [vm_compute; reflexivity|]. intros (H & _). vm_compute in H. discriminate.
  - exists (v_nan_structure lm). split; [vm_compute; reflexivity|]. intros (_ & H & _). vm_compute in H. discriminate.
  - exists (v_above lm). split; [split; [vm_compute; reflexivity|intros a [<-|[]]; vm_compute; reflexivity]|].
    split; [vm_compute; reflexivity|]. intros (_ & _ & H). destruct (H _ (or_introl eq_refl)) as [K _]. vm_compute in K. discriminate.
Qed.

(** ** Lines *)
Lemma v_two_above :
  exists (l l' : Line Nm (Stringing Nm)) e s st a p base,
    reachable (N := Nm) num64 l /\ Line_report l (Some []) = (l', Ok (true, Some e)) /\
    nth_error (structures_of l) 0 = Some s /\ ls_structure s = Some st /\ nth_error (st_attachments st) 0 = Some a /\
    structure_in_range st /\ (#0 <? sa_offset_vertical_top a) = true /\ (ls_height_adjustment s =? #0) = true /\
    snd (PointXyzLineStructureAttachment l' 0 0) = Ok p /\ snd (PointXyzLineStructure l' 0) = Ok base /\
    (p3z base + st_height st <? p3z p) = true.
Proof.
  destruct (v_result_spec lm _ _ (v_two_valid lm)) as (l' & e & E & _).
  assert (K := v_two_over lm). cbn zeta in K. rewrite E in K. cbn [fst] in K.
  apply v_over_spec in K as (p & base & K1 & K2 & K3).
  exists (v_line lm (v_two lm)), l', e, (s_ls lm 50 2), (s_st lm 2), (s_att lm), p, base.
  split; [apply v_two_r|]. split; [exact E|]. split; [vm_cast_no_check (eq_refl (Some (s_ls lm 50 2)))|]. split; [reflexivity|]. split; [reflexivity|].
  split; [apply range_case|]. split; [vm_compute; reflexivity|]. split; [vm_compute; reflexivity|]. auto.
Qed.

Lemma v_behind_case : exists (l l' : Line Nm (Stringing Nm)) e,
  reachable (N := Nm) num64 l /\ Line_report l (Some []) = (l', Ok (true, Some e)) /\ e = [] /\
  (2 <= List.length (tl_alignment l))%nat /\ List.length (tl_line_structures l) = 1%nat /\
  snd (PointXyzLineStructureAttachment l' 0 0) = Throw.
Proof.
  destruct (v_result_spec lm _ _ (v_behind_valid lm)) as (l' & e & E & L).
  assert (K := v_behind_throws lm). rewrite E in K. cbn [fst] in K.
  exists (v_line lm (v_behind lm)), l', e. split; [apply v_behind_r|]. split; [exact E|].
  split; [destruct e; [reflexivity|discriminate]|].
  split; [apply Nat.leb_le; vm_compute; reflexivity|]. split; [vm_compute; reflexivity|exact K].
Qed.

(** A structure is added after a query. *)
Definition v_stale : list (LineCall Nm (Stringing Nm)) :=
  [CAddAlignmentPoint (s_pt lm 0 0); CAddAlignmentPoint (s_pt lm 0 100); CAddLineStructure (s_ls lm 10 2);
   CPointsXyzLineStructures; CAddLineStructure (s_ls lm 20 2)].
Definition v_unasked : list (LineCall Nm (Stringing Nm)) :=
  [CAddAlignmentPoint (s_pt lm 0 0); CAddAlignmentPoint (s_pt lm 0 100); CAddLineStructure (s_ls lm 10 2); CAddLineStructure (s_ls lm 20 2)].
Lemma v_stale_r : reachable (N := Nm) num64 (v_line lm v_stale).
Proof. apply v_reachable; [repeat constructor|vm_compute; reflexivity]. Qed.
Lemma v_unasked_fresh : fresh_line (v_line lm v_unasked).
Proof.
  exists v_unasked. split.
  { intros c H. simpl in H. repeat (destruct H as [<-|H]; [reflexivity|]). contradiction. }
  unfold v_line.
  assert (K : match line_run v_unasked with Some _ => true | None => false end = true) by (vm_compute; reflexivity).
  destruct (line_run v_unasked); [reflexivity|discriminate].
Qed.
Lemma v_stale_valid : v_result (Line_report (v_line lm v_stale) None) = Some (true, 0%nat).
Proof. vm_compute. reflexivity. Qed.
Lemma v_stale_case : exists (l l' l0 : Line Nm (Stringing Nm)) c,
  reachable (N := Nm) num64 l /\ Line_report l None = (l', Ok c) /\ fresh_line l0 /\
  tl_alignment l0 = tl_alignment l /\ tl_origin l0 = tl_origin l /\ structures_of l0 = structures_of l /\
  answer_length (snd (PointsXyzLineStructures l)) = 1%Z /\ answer_length (snd (PointsXyzLineStructures l')) = 2%Z.
Proof.
  assert (V := v_stale_valid).
  assert (L : answer_length (snd (PointsXyzLineStructures (fst (Line_report (v_line lm v_stale) None)))) = 2%Z) by (vm_compute; reflexivity).
  destruct (Line_report (v_line lm v_stale) None) as [l' [c| |]] eqn:E; try (unfold v_result in V; discriminate V).
  exists (v_line lm v_stale), l', (v_line lm v_unasked), c. split; [apply v_stale_r|]. split; [exact E|].
  split; [apply v_unasked_fresh|].
  split; [exact (eq_refl (tl_alignment (v_line lm v_unasked)) <: tl_alignment (v_line lm v_unasked) = tl_alignment (v_line lm v_stale))|].
  split; [exact (eq_refl (tl_origin (v_line lm v_unasked)) <: tl_origin (v_line lm v_unasked) = tl_origin (v_line lm v_stale))|].
  split; [exact (eq_refl (structures_of (v_line lm v_unasked)) <: structures_of (v_line lm v_unasked) = structures_of (v_line lm v_stale))|].
  split; [vm_compute; reflexivity|exact L].
Qed.
End Case.

(** The line with a cable. *)
Definition v_shape (l : Line M64 (Stringing M64)) : bool :=
  Nat.leb 2 (List.length (tl_alignment l)) && Nat.eqb (List.length (tl_line_structures l)) 2 && Nat.eqb (List.length (tl_line_cables l)) 1 &&
  forallb (fun s => on_b math64 (tl_alignment l) (ls_station s)) (structures_of l).
Lemma v_dead_shape : v_shape (v_line math64 (v_strung DeadEnd)) = true.
Proof. vm_cast_no_check (eq_refl true). Qed.
Lemma v_dead_case : exists l l' : Line M64 (Stringing M64), exists e,
  reachable (N := M64) num64 l /\ Line_report l (Some []) = (l', Ok (true, Some e)) /\ List.length e = 0%nat /\
  (2 <= List.length (tl_alignment l))%nat /\ List.length (tl_line_structures l) = 2%nat /\ List.length (tl_line_cables l) = 1%nat /\
  Forall (fun s => on_alignment (tl_alignment l) (ls_station s)) (structures_of l).
Proof.
  destruct (v_result_spec math64 _ _ v_dead_valid) as (l' & e & E & L). assert (K := v_dead_shape). unfold v_shape in K.
  apply andb_true_iff in K as [K K4]. apply andb_true_iff in K as [K K3]. apply andb_true_iff in K as [K1 K2].
  exists (v_line math64 (v_strung DeadEnd)), l', e. split; [apply v_strung_r|]. split; [exact E|]. split; [exact L|].
  split; [apply Nat.leb_le; exact K1|]. split; [apply Nat.eqb_eq; exact K2|]. split; [apply Nat.eqb_eq; exact K3|].
  apply Forall_forall. intros s Hs. rewrite forallb_forall in K4. apply on_b_spec. auto.
Qed.

Lemma v_null_invalid : v_result (Line_report (v_line math64 (v_strung HTNull)) (Some [])) = Some (false, 4%nat).
Proof. apply v_is_spec. vm_cast_no_check (eq_refl true). Qed.
