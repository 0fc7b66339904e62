(** The error messages of the Validate functions of the solvers and models: C141 - C146. *)
From Coq Require Import ZArith Bool List String.
From Flocq Require Import IEEE754.BinarySingleNaN.
From Verif Require Import Num NumFacts ModelBase ModelAlignment ModelLine ModelCable ModelCatenary ModelLoad ModelSolver ModelPolynomial
  ModelSolar ModelThermal ModelElongation ModelReload ModelSagtension SpecSagtension ModelLocator ModelSagging ModelValidate SpecValidate
  ModelReport SpecReport SpecReportAll SampleSag ProofReportSag ProofReportGroups ProofReportCases.
Import ListNotations.
Open Scope num_scope.
Open Scope list_scope.

(** C141: the list given has no influence on the result and on the object, messages are only
    appended, and a null list stays null. *)
Theorem report_appends : forall (N : Num) (text : N -> string),
  simple_reports (N := N) appends /\ nested_reports (N := N) text appends /\ loader_reports (N := N) appends.
Proof. exact reports_append. Qed.
Print Assumptions report_appends.

(** A catenary solver without a target, and its messages. *)
Example report_appends_case : forall lm,
  fst (CatenarySolver_report (CatenarySolver_default (N := B64 lm)) None) = (false, None) /\
  exists e, fst (CatenarySolver_report (CatenarySolver_default (N := B64 lm)) (Some [mkMessage "x" "y"])) =
      (false, Some (mkMessage "x" "y" :: e)) /\
    In (mkMessage "Invalid target type" "CATENARY SOLVER") e.
Proof. intros lm. split; [vm_compute; reflexivity|]. eexists. split; [vm_compute; reflexivity|]. vm_compute. tauto. Qed.

(** C142: every rejection is explained by a message. *)
Theorem report_explains : forall (N : Num) (text : N -> string),
  simple_reports (N := N) (always rejections_explained) /\ nested_reports (N := N) text (always rejections_explained) /\
  loader_reports (N := N) (always rejections_explained).
Proof. exact reports_explained. Qed.
Print Assumptions report_explains.

(** A solar radiation solver without a unit system is rejected with a message. *)
Example report_explains_case : forall lm,
  fst (SolarSolver_report (sr_set_quality (sr_set_latitude (sr_set_hour (sr_set_elevation (sr_set_day (sr_set_azimuth_cable
     (SolarSolver_default (N := B64 lm)) #90) 172%Z) #0) 12%Z) #30) AqClear) (Some [])) =
    (false, Some [mkMessage "Invalid unit system" "SOLAR RADIATION SOLVER"]).
Proof. intros lm. vm_compute. reflexivity. Qed.

(** C143, the classes for which every message comes with a rejection *)
Theorem report_rejects_partial : forall N : Num, simple_reports (N := N) (always messages_are_rejections).
Proof. exact reports_quiet. Qed.
Print Assumptions report_rejects_partial.

(** C143: the polynomial type of a stretch state is tested by the class it is derived from,
    whose result is dropped: an elongation model is accepted with three messages. *)
Theorem report_rejects_refuted :
  (forall lm, StretchState_report (mkStretchState (N := B64 lm) #60 PTNull #0) (Some []) = (true, Some [no_type])) /\
  (forall text warn, exists m m', h_model 6 6 PTNull = Ok m /\
     ElongModel_report text warn m (Some []) = Ok ((true, Some [no_type; no_type; no_type]), m')).
Proof. exact (conj (fun lm => eq_refl) model_untyped). Qed.
Print Assumptions report_rejects_refuted.

(** C144, every message has a title and a description, except those of the classes derived
    from LineCableLoaderBase *)
Theorem report_worded_partial : forall (N : Num) (text : N -> string),
  simple_reports (N := N) (always worded) /\ nested_reports (N := N) text (always worded) /\
  (forall (l l' : Line N (Stringing N)) ok e, Line_report l (Some []) = (l', Ok (ok, Some e)) -> worded ok e).
Proof. exact reports_worded. Qed.
Print Assumptions report_worded_partial.

(** C144: a reloader without a condition and an unloader without a spacing are rejected with
    an empty description, of a failure the base class does not know. *)
Theorem report_worded_refuted :
  (exists r', Reloader_report [] (lr_fresh (Some (g_line g_own)) CdNull (Some (g_weather 96))) (Some []) =
     Ok ((false, Some [missing; mkMessage "" "LINE CABLE LOADER BASE"; mkMessage "Invalid reloaded condition" "LINE CABLE RELOADER"]), r')) /\
  (exists u', Unloader_report [] (lu_fresh (Some (g_line g_own)) CdInitial (g_spacing 0) (x20 80)) (Some []) =
     Ok ((false, Some [missing; mkMessage "" "LINE CABLE LOADER BASE";
                       mkMessage "Invalid horizontal attachment spacing" "LINE CABLE UNLOADER"]), u')).
Proof. exact (conj reloader_blank unloader_blank). Qed.
Print Assumptions report_worded_refuted.

(** C145: an elongation model whose polynomials are steeper than its moduli says the same two
    messages a hundred times each. *)
Theorem report_distinct_refuted : forall text, exists m m' e, h_model 6 2 PTLoadStrain = Ok m /\
  ElongModel_report text true m (Some []) = Ok ((false, Some e), m') /\
  List.length e = 200%nat /\ (forall x, In x e -> x = steep_creep text \/ x = steep_load text).
Proof. exact model_repeats. Qed.
Print Assumptions report_distinct_refuted.

(** C146, what a failed update of a sagger with valid inputs says *)
Theorem sagger_cause_partial : forall (N : Num) env (s s1 : Sagger N) cs l,
  sa_constraints s = Some cs -> forallb Constraint_Validate cs = true -> sa_line s = Some l -> Strung_Validate env l = Ok true ->
  sa_Update env s = Ok (false, s1) ->
  exists e d, Sagger_report env s (Some []) = Ok ((false, Some (e ++ [mkMessage d "LINE CABLE SAGGER"])), s1) /\
    (d = "Error updating class. Could not solve for controlling constraint index"%string \/
     d = "Error updating class. Could not solve for new constraint limit"%string).
Proof. exact @sagger_says. Qed.
Print Assumptions sagger_cause_partial.

(** The inputs of the sagger below are valid. *)
Example sagger_cause_case : exists cs l, sa_constraints h_sagger = Some cs /\ forallb Constraint_Validate cs = true /\
  sa_line h_sagger = Some l /\ Strung_Validate [] l = Ok true /\ exists s1, sa_Update [] h_sagger = Ok (false, s1).
Proof. exact h_sagger_case. Qed.

(** C146: the new limit of this sagger is found and the catenaries at the constraints are not;
    the message says the contrary. *)
Theorem sagger_cause_refuted :
  (exists s1, UpdateLineCableConstraintLimit [] h_sagger = Ok (true, s1) /\
     exists s2, UpdateCatenariesConstraintsActual [] s1 = Ok (false, s2)) /\
  (exists s', Sagger_report [] h_sagger (Some []) = Ok ((false, Some [missing; new_limit]), s')).
Proof. exact (conj sagger_limit_solved sagger_blames). Qed.
Print Assumptions sagger_cause_refuted.
