(** Validation of a transmission line: C130 - C137, and the healing part of C13. *)
From Coq Require Import ZArith Bool List String.
From Flocq Require Import IEEE754.BinarySingleNaN.
From Verif Require Import Num NumFacts ModelBase ModelAlignment ModelLine ModelCable ModelCatenary ModelLoad ModelSagtension
  SpecLine SpecTransmission SampleLine SampleMath ModelValidate SpecValidate ProofValidate ProofValidateLine ProofValidateCoord
  ProofValidateSafe ProofValidateRange ProofValidateAll ProofLineRefuted SampleValidate ProofValidateCase.
Import ListNotations.
Open Scope num_scope.
Open Scope list_scope.

(** C130: the result does not depend on the list, messages are only appended and a null
    list stays null. *)
Theorem validate_appends : forall N : Num,
  (forall h : Hardware N, exists ok e, answers (Hardware_Validate h) ok e) /\
  (forall a : StructureAttachment N, exists ok e, answers (StructureAttachment_Validate a) ok e) /\
  (forall s : Structure N, exists ok e, answers (Structure_Validate s) ok e) /\
  (forall s : LineStructure N, exists ok e, answers (LineStructure_Validate s) ok e) /\
  (forall p : AlignmentPoint N, exists ok e, answers (AlignmentPoint_report p) ok e) /\
  (forall a : list (AlignmentPoint N), exists ok e, answers (Alignment_report a) ok e) /\
  (forall c : Cable N, exists ok e, answers (Cable_report c) ok e) /\
  (forall w : WeatherLoadCase N, exists ok e, answers (WeatherLoadCase_report w) ok e) /\
  (forall k : Constraint N, exists ok e, answers (Constraint_report k) ok e) /\
  (forall k : Catenary2d N, exists ok e, answers (Catenary2d_report k) ok e) /\
  (forall k : Catenary3d N, exists ok e, answers (Catenary3d_report k) ok e) /\
  (forall (env : Env N) (l : Strung N), exists r, answers_or_fails (LineCable_report env l) r) /\
  (forall l : Line N (Stringing N), exists l' r, answers_or_fails (fun m => snd (Line_report l m)) r /\ forall m, fst (Line_report l m) = l').
Proof. exact @all_answer. Qed.
Print Assumptions validate_appends.

(** The default hardware is rejected with four messages, after those of the caller. *)
Example validate_appends_case : forall lm,
  Hardware_Validate (Hardware_default (N := B64 lm)) (Some [mkMessage "x" "y"]) =
    (false, Some [mkMessage "x" "y"; mkMessage "Invalid cross sectional area" "HARDWARE"; mkMessage "Invalid length" "HARDWARE";
                  mkMessage "Invalid type" "HARDWARE"; mkMessage "Invalid weight" "HARDWARE"]) /\
  Hardware_Validate (Hardware_default (N := B64 lm)) None = (false, None).
Proof. intros lm. split; vm_compute; reflexivity. Qed.

(** C131: every rejection is explained by a message. *)
Theorem validate_explains : forall N : Num,
  (forall (h : Hardware N) ok e, answers (Hardware_Validate h) ok e -> rejections_explained ok e) /\
  (forall (a : StructureAttachment N) ok e, answers (StructureAttachment_Validate a) ok e -> rejections_explained ok e) /\
  (forall (s : Structure N) ok e, answers (Structure_Validate s) ok e -> rejections_explained ok e) /\
  (forall (s : LineStructure N) ok e, answers (LineStructure_Validate s) ok e -> rejections_explained ok e) /\
  (forall (p : AlignmentPoint N) ok e, answers (AlignmentPoint_report p) ok e -> rejections_explained ok e) /\
  (forall (a : list (AlignmentPoint N)) ok e, answers (Alignment_report a) ok e -> rejections_explained ok e) /\
  (forall (c : Cable N) ok e, answers (Cable_report c) ok e -> rejections_explained ok e) /\
  (forall (w : WeatherLoadCase N) ok e, answers (WeatherLoadCase_report w) ok e -> rejections_explained ok e) /\
  (forall (k : Constraint N) ok e, answers (Constraint_report k) ok e -> rejections_explained ok e) /\
  (forall (k : Catenary2d N) ok e, answers (Catenary2d_report k) ok e -> rejections_explained ok e) /\
  (forall (k : Catenary3d N) ok e, answers (Catenary3d_report k) ok e -> rejections_explained ok e) /\
  (forall (env : Env N) (l : Strung N) ok e, LineCable_report env l (Some []) = Ok (ok, Some e) -> rejections_explained ok e) /\
  (forall (l l' : Line N (Stringing N)) ok e, Line_report l (Some []) = (l', Ok (ok, Some e)) -> rejections_explained ok e).
Proof. exact @all_explained. Qed.
Print Assumptions validate_explains.

(** A line structure without a structure is rejected with a message. *)
Example validate_explains_case : forall lm,
  LineStructure_Validate (mkLS (N := B64 lm) [] (fofZ 0) (fofZ 0) (fofZ 0) (fofZ 0) None) (Some []) =
    (false, Some [mkMessage "Invalid structure" "LINE STRUCTURE"]).
Proof. intros lm. vm_compute. reflexivity. Qed.

(** C132, the classes for which every message comes with a rejection *)
Theorem validate_rejects_partial : forall N : Num,
  (forall (h : Hardware N) ok e, answers (Hardware_Validate h) ok e -> messages_are_rejections ok e) /\
  (forall (a : StructureAttachment N) ok e, answers (StructureAttachment_Validate a) ok e -> messages_are_rejections ok e) /\
  (forall (p : AlignmentPoint N) ok e, answers (AlignmentPoint_report p) ok e -> messages_are_rejections ok e) /\
  (forall (a : list (AlignmentPoint N)) ok e, answers (Alignment_report a) ok e -> messages_are_rejections ok e) /\
  (forall (c : Cable N) ok e, answers (Cable_report c) ok e -> messages_are_rejections ok e) /\
  (forall (w : WeatherLoadCase N) ok e, answers (WeatherLoadCase_report w) ok e -> messages_are_rejections ok e) /\
  (forall (k : Constraint N) ok e, answers (Constraint_report k) ok e -> messages_are_rejections ok e) /\
  (forall (k : Catenary2d N) ok e, answers (Catenary2d_report k) ok e -> messages_are_rejections ok e) /\
  (forall (k : Catenary3d N) ok e, answers (Catenary3d_report k) ok e -> messages_are_rejections ok e).
Proof. exact @all_quiet. Qed.
Print Assumptions validate_rejects_partial.

(** The alignment of the sample line has a message only when a point is bad. *)
Example validate_rejects_case : forall lm,
  Alignment_report [s_pt lm 0 0; s_pt lm 5 60] (Some []) = (true, Some []) /\
  Alignment_report [s_pt lm 0 0; s_pt lm (-5) 60] (Some []) = (false, Some [mkMessage "Invalid elevation" "ALIGNMENT POINT"]).
Proof. intros lm. split; vm_compute; reflexivity. Qed.

(** C132: a structure with an attachment above its top, and a cable that ends on suspension
    hardware, are accepted with messages. *)
Theorem validate_rejects_refuted :
  (forall lm, exists s : Structure (B64 lm),
     Structure_Validate s (Some []) =
       (true, Some [mkMessage "Invalid vertical offset from top of structure" "STRUCTURE ATTACHMENT"])) /\
  (forall lm, exists l l' : Line (B64 lm) (Stringing (B64 lm)), exists e, reachable (N := B64 lm) num64 l /\
     Line_report l (Some []) = (l', Ok (true, Some e)) /\ List.length e = 1%nat) /\
  (exists l l' : Line M64 (Stringing M64), exists e, reachable (N := M64) num64 l /\
     Line_report l (Some []) = (l', Ok (true, Some e)) /\ List.length e = 2%nat).
Proof.
  exact (conj (fun lm => ex_intro _ (v_above lm) eq_refl)
    (conj (fun lm => match v_result_spec lm _ _ (v_high_valid lm) with ex_intro _ l' (ex_intro _ e K) =>
              ex_intro _ (v_line lm (v_high lm)) (ex_intro _ l' (ex_intro _ e (conj (v_high_r lm) K))) end)
          match v_result_spec math64 _ _ v_loose_valid with ex_intro _ l' (ex_intro _ e K) =>
              ex_intro _ (v_line math64 (v_strung Suspension)) (ex_intro _ l' (ex_intro _ e (conj (v_strung_r Suspension) K))) end)).
Qed.
Print Assumptions validate_rejects_refuted.

(** C133: the attachment of a validated line that is 20 below the top of its structure is
    placed above the top. *)
Theorem validate_attachment_height_refuted : forall lm,
  exists (l l' : Line (B64 lm) (Stringing (B64 lm))) e s st a p base,
    reachable (N := B64 lm) num64 l /\ Line_report l (Some []) = (l', Ok (true, Some e)) /\
    nth_error (structures_of l) 0 = Some s /\ ls_structure s = Some st /\ nth_error (st_attachments st) 0 = Some a /\
    structure_in_range st /\ (#0 <? sa_offset_vertical_top a) = true /\ (ls_height_adjustment s =? #0) = true /\
    snd (PointXyzLineStructureAttachment l' 0 0) = Ok p /\ snd (PointXyzLineStructure l' 0) = Ok base /\
    (p3z base + st_height st <? p3z p) = true.
Proof. exact v_two_above. Qed.
Print Assumptions validate_attachment_height_refuted.

(** C134: a validated line of two or more alignment points answers without undefined
    behaviour, and completely for the structures on the alignment. *)
Theorem validated_line_answers_partial : forall lm (l l' : Line (B64 lm) (Stringing (B64 lm))) m m',
  reachable (N := B64 lm) num64 l -> Line_report l m = (l', Ok (true, m')) -> (2 <= List.length (tl_alignment l))%nat ->
  (exists ps, PointsXyzAlignment l' = (l', Ok (Some ps)) /\ List.length ps = List.length (tl_alignment l)) /\
  (exists ps, PointsXyzLineStructures l' = (l', Ok (Some ps)) /\ List.length ps = List.length (tl_line_structures l)) /\
  (forall x, num64 x -> exists p, PointXyzAlignment l' x = (l', Ok p)) /\
  (forall i, exists p, PointXyzLineStructure l' i = (l', Ok p)) /\
  (forall i j, snd (PointXyzLineStructureAttachment l' i j) <> UB) /\
  (forall i j s, nth_error (structures_of l) i = Some s -> on_alignment (tl_alignment l) (ls_station s) ->
     exists p, PointXyzLineStructureAttachment l' (Z.of_nat i) j = (l', Ok p)).
Proof. exact (fun lm => @validated_queries (B64 lm) num64 (B64_ord lm)). Qed.
Print Assumptions validated_line_answers_partial.

(** The line with a cable. *)
Example validated_line_answers_case : exists l l' : Line M64 (Stringing M64), exists e,
  reachable (N := M64) num64 l /\ Line_report l (Some []) = (l', Ok (true, Some e)) /\ List.length e = 0%nat /\
  (2 <= List.length (tl_alignment l))%nat /\ List.length (tl_line_structures l) = 2%nat /\ List.length (tl_line_cables l) = 1%nat /\
  Forall (fun s => on_alignment (tl_alignment l) (ls_station s)) (structures_of l).
Proof. exact v_dead_case. Qed.

(** C134: the attachments of a structure beyond the end of the alignment. *)
Theorem validated_line_answers_refuted : forall lm, exists (l l' : Line (B64 lm) (Stringing (B64 lm))) e,
  reachable (N := B64 lm) num64 l /\ Line_report l (Some []) = (l', Ok (true, Some e)) /\ e = [] /\
  (2 <= List.length (tl_alignment l))%nat /\ List.length (tl_line_structures l) = 1%nat /\
  snd (PointXyzLineStructureAttachment l' 0 0) = Throw.
Proof. exact v_behind_case. Qed.
Print Assumptions validated_line_answers_refuted.

(** C13: after a validation the coordinates are those of a line that was not queried
    before. *)
Theorem validate_refreshes_coordinates : forall lm (l l' l0 : Line (B64 lm) (Stringing (B64 lm))) m c,
  reachable (N := B64 lm) num64 l -> Line_report l m = (l', Ok c) ->
  fresh_line l0 -> tl_alignment l0 = tl_alignment l -> tl_origin l0 = tl_origin l -> structures_of l0 = structures_of l ->
  snd (PointsXyzAlignment l') = snd (PointsXyzAlignment l0) /\
  snd (PointsXyzLineStructures l') = snd (PointsXyzLineStructures l0) /\
  (forall x, snd (PointXyzAlignment l' x) = snd (PointXyzAlignment l0 x)) /\
  (forall i, snd (PointXyzLineStructure l' i) = snd (PointXyzLineStructure l0 i)) /\
  (forall i j, snd (PointXyzLineStructureAttachment l' i j) = snd (PointXyzLineStructureAttachment l0 i j)).
Proof. exact (fun lm => @report_refreshes (B64 lm) num64). Qed.
Print Assumptions validate_refreshes_coordinates.

(** A structure is added after a query; the validation corrects the coordinates. *)
Example validate_refreshes_case : forall lm, exists (l l' l0 : Line (B64 lm) (Stringing (B64 lm))) c,
  reachable (N := B64 lm) num64 l /\ Line_report l None = (l', Ok c) /\ fresh_line l0 /\
  tl_alignment l0 = tl_alignment l /\ tl_origin l0 = tl_origin l /\ structures_of l0 = structures_of l /\
  answer_length (snd (PointsXyzLineStructures l)) = 1%Z /\ answer_length (snd (PointsXyzLineStructures l')) = 2%Z.
Proof. exact v_stale_case. Qed.

(** C135: for numbers that are not NaN the checks are exact, except that an attachment
    above the top of its structure is accepted. *)
Theorem validate_range_partial : forall lm m,
  (forall h : Hardware (B64 lm), hardware_numbers (N := B64 lm) num64 h -> (fst (Hardware_Validate h m) = true <-> hardware_in_range h)) /\
  (forall p : AlignmentPoint (B64 lm), alignment_point_numbers (N := B64 lm) num64 p ->
     (fst (AlignmentPoint_report p m) = true <-> alignment_point_in_range p)) /\
  (forall a : list (AlignmentPoint (B64 lm)), Forall (alignment_point_numbers (N := B64 lm) num64) a ->
     (fst (Alignment_report a m) = true <-> Forall alignment_point_in_range a)) /\
  (forall w : WeatherLoadCase (B64 lm), weather_numbers (N := B64 lm) num64 w -> (fst (WeatherLoadCase_report w m) = true <-> weather_in_range w)) /\
  (forall c : Cable (B64 lm), cable_numbers (N := B64 lm) num64 c -> (fst (Cable_report c m) = true <-> cable_in_range c)) /\
  (forall k : Constraint (B64 lm), constraint_numbers (N := B64 lm) num64 k -> (fst (Constraint_report k m) = true <-> constraint_in_range k)) /\
  (forall s : Structure (B64 lm), structure_numbers (N := B64 lm) num64 s ->
     (fst (Structure_Validate s m) = true /\ no_negative_offset s <-> structure_in_range s)) /\
  (forall s : LineStructure (B64 lm), line_structure_numbers (N := B64 lm) num64 s ->
     (fst (LineStructure_Validate s m) = true /\ (forall st, ls_structure s = Some st -> no_negative_offset st)
      <-> line_structure_in_range s)).
Proof. exact range64. Qed.
Print Assumptions validate_range_partial.

(** The sample parts are numbers, one hardware in range and one not. *)
Example validate_range_case : forall lm,
  hardware_numbers (N := B64 lm) num64 (s_hw lm) /\ hardware_in_range (s_hw lm) /\
  hardware_numbers (N := B64 lm) num64 (Hardware_default (N := B64 lm)) /\ ~ hardware_in_range (Hardware_default (N := B64 lm)) /\
  structure_numbers (N := B64 lm) num64 (s_st lm 2) /\ structure_in_range (s_st lm 2).
Proof. exact range_case. Qed.

(** C135: NaN passes every test, and an attachment above the top passes that of the
    structure. *)
Theorem validate_range_refuted : forall lm,
  (exists h : Hardware (B64 lm), Hardware_Validate h (Some []) = (true, Some []) /\ ~ hardware_in_range h) /\
  (exists p : AlignmentPoint (B64 lm), AlignmentPoint_report p (Some []) = (true, Some []) /\ ~ alignment_point_in_range p) /\
  (exists w : WeatherLoadCase (B64 lm), WeatherLoadCase_report w (Some []) = (true, Some []) /\ ~ weather_in_range w) /\
  (exists s : Structure (B64 lm), Structure_Validate s (Some []) = (true, Some []) /\ ~ structure_in_range s) /\
  (exists s : Structure (B64 lm), structure_numbers (N := B64 lm) num64 s /\ fst (Structure_Validate s None) = true /\ ~ structure_in_range s).
Proof. exact range_fails. Qed.
Print Assumptions validate_range_refuted.

(** C136: Validate of a line returns if the alignment has two points or there are no
    structures. *)
Theorem validate_returns_partial : forall lm (l : Line (B64 lm) (Stringing (B64 lm))) m, reachable (N := B64 lm) num64 l ->
  ((2 <= List.length (tl_alignment l))%nat \/ tl_line_structures l = []) -> exists c, snd (Line_report l m) = Ok c.
Proof. exact (fun lm => @validate_returns (B64 lm) num64 (B64_ord lm)). Qed.
Print Assumptions validate_returns_partial.

(** A line with one alignment point throws. *)
Theorem validate_returns_refuted : forall lm, exists l : Line (B64 lm) (Stringing (B64 lm)), reachable (N := B64 lm) num64 l /\
  snd (Line_report l None) = Throw.
Proof. exact (fun lm => ex_intro _ (v_line lm (v_single lm)) (conj (v_single_r lm) (v_single_throws lm))). Qed.
Print Assumptions validate_returns_refuted.

(** C137: a line is valid exactly when its alignment, its structures and its cables are. *)
Theorem validate_line_exact : forall N (l l' : Line N (Stringing N)) m ok m', Line_report l m = (l', Ok (ok, m')) ->
  (ok = true <->
     fst (Alignment_report (tl_alignment l) None) = true /\
     Forall (fun n => fst (LineStructure_Validate (snd n) None) = true) (tl_line_structures l) /\
     Forall (fun c => exists e, LineCable_report (tl_line_structures l) c None = Ok (true, e)) (tl_line_cables l)).
Proof. exact @line_exact. Qed.
Print Assumptions validate_line_exact.

(** The line with a cable is valid, the same line with a null hardware type is not. *)
Example validate_line_exact_case :
  v_result (Line_report (v_line math64 (v_strung DeadEnd)) (Some [])) = Some (true, 0%nat) /\
  v_result (Line_report (v_line math64 (v_strung HTNull)) (Some [])) = Some (false, 4%nat).
Proof. exact (conj v_dead_valid v_null_invalid). Qed.
