(** Properties of CatenarySolver (catenary_solver.cc). *)
From Coq Require Import ZArith Bool List Reals Lra.
From Verif Require Import Num NumFacts ModelBase ModelCatenary SpecCatenary ModelSolver SpecSolver
  ProofReal ProofSolver ProofSolverTarget ProofSolverCases ProofSpan ProofSolverSag.
Import ListNotations.
Open Scope R_scope.

(** C40, partial: whenever a query answers, after any history, and a new solver with the
    same inputs answers too (see the refutation below), then the catenary with the
    reported tension is valid, it is the catenary that Catenary() returns, and it meets
    the target: a constant exactly, a length within 0.01 / w, the sag within 0.0134 / w, the
    tension at an end, or the larger one, within 0.01 times the length of the spacing over
    its x.  For a sag or a tension at another position the reported tension is a secant step
    of at most 0.01 from a tension [a] whose value differs from the target by the slope of
    the secant times that step; a bound of the slope is missing. *)
Theorem solver_target_met_partial : forall ks, let s := cs_run (@CatenarySolver_default RNum) ks in
  let h : R := fst (cs_TensionHorizontal s) in
  h <> -999999 -> (fst (cs_TensionHorizontal (cs_renew s)) : R) <> -999999 ->
  c3_Validate (hung s h) = true /\
  (forall q, c3_answer (fst (cs_Catenary s)) q = c3_answer (hung s h) q) /\
  match cs_type s with
  | TgConstant => c3_Constant (hung s h) = cs_value s
  | TgLength => Rabs (c3_Length (hung s h) - cs_value s) <= / Vector3d_Magnitude (c3_weight (cs_catenary s)) / 100
  | TgSag => secant_close (fun h => quantity TgSag (cs_position s) (hung s h)) (cs_value s) (1 / 100) h /\
      (cs_position s = -1 ->
       Rabs (c3_Sag (hung s h) - cs_value s) <= 4 / 3 / Vector3d_Magnitude (c3_weight (cs_catenary s)) / 100)
  | TgTension => secant_close (fun h => quantity TgTension (cs_position s) (hung s h)) (cs_value s) (1 / 100) h /\
      (at_end (cs_position s) ->
       Rabs (quantity TgTension (cs_position s) (hung s h) - cs_value s) <=
       Vector3d_Magnitude (c3_spacing (cs_catenary s)) / v3x (c3_spacing (cs_catenary s)) / 100)
  | TgNull => False
  end.
Proof. exact run_answer. Qed.
Print Assumptions solver_target_met_partial.

(** A length of a light span, after inputs were set, replaced and queried. *)
Example solver_target_met_case : let ks := [
    ScSetType TgLength; ScSetSpacing (mkVector3d (N := RNum) (700 : R) (0 : R) (0 : R)); ScTensionHorizontal;
    ScSetSpacing light_spacing; ScSetWeight light_weight; ScValidate; ScSetValue (N := RNum) light_length; ScCatenary] in
  let s := cs_run (@CatenarySolver_default RNum) ks in
  (fst (cs_TensionHorizontal s) : R) = 21 / 100 /\
  Rabs (c3_Length (c3_fresh ADPositive light_spacing (21 / 100 : R) light_weight) - light_length) <= / (4 / 1000) / 100.
Proof. exact light_case. Qed.

(** A sag, and a tension at the end, of level spans. *)
Example solver_target_sag_case : let ks := [
    ScSetType TgSag; ScSetSpacing (span 700); ScTensionHorizontal; ScSetSpacing (span 100); ScSetWeight (hang (4 / 1000));
    ScSetValue (N := RNum) (middle_sag 100 (4 / 1000))] in
  let s := cs_run (@CatenarySolver_default RNum) ks in
  (fst (cs_TensionHorizontal s) : R) = 21 / 100 /\ (fst (cs_TensionHorizontal (cs_renew s)) : R) = 21 / 100 /\
  Rabs (c3_Sag (level 100 (4 / 1000) (21 / 100)) - middle_sag 100 (4 / 1000)) <= 4 / 3 / (4 / 1000) / 100.
Proof. exact sag_target_case. Qed.

Example solver_target_tension_case : let ks := [
    ScSetType TgTension; ScSetPosition (1 : RNum); ScSetSpacing (span 100); ScSetWeight (hang (4 / 1000)); ScSetValue (N := RNum) taut] in
  let s := cs_run (@CatenarySolver_default RNum) ks in
  2 / 10 < fst (cs_TensionHorizontal s) < 21 / 100 /\ 2 / 10 < fst (cs_TensionHorizontal (cs_renew s)) < 21 / 100.
Proof. exact tension_target_case. Qed.

(** C40: the claim without the second hypothesis is false: a constant below the minimum is
    first refused, then reported with an invalid catenary. *)
Theorem solver_target_met_refuted : exists ks, let s := cs_run (@CatenarySolver_default RNum) ks in
  let h : R := fst (cs_TensionHorizontal s) in
  h <> -999999 /\ c3_Validate (hung s h) = false.
Proof. exact low_refuted. Qed.
Print Assumptions solver_target_met_refuted.

(** C41, partial, in any arithmetic: after any history the answers are the first answers
    of a new solver with the same inputs, or its second answers if the first is -999999.
    They are the first ones if Validate accepts the inputs, or if the solution failed. *)
Theorem solver_answers_partial : forall (N : Num) ks, let s := cs_run (@CatenarySolver_default N) ks in
  let f := cs_renew s in
  (same_answers s f \/ (fst (cs_TensionHorizontal f) = ferr /\ same_answers s (snd (cs_TensionHorizontal f)))) /\
  (fst (cs_Validate f) = true \/ cs_is_updated (snd (cs_TensionHorizontal f)) = false -> same_answers s f) /\
  cs_position s = last_of pickS_position ks #(-1)%num /\
  c3_spacing (cs_catenary s) = last_of pickS_spacing ks Vector3d_default /\
  cs_type s = last_of pickS_type ks TgNull /\
  cs_value s = last_of pickS_value ks ferr /\
  c3_weight (cs_catenary s) = last_of pickS_weight ks Vector3d_default.
Proof. exact history_all. Qed.
Print Assumptions solver_answers_partial.

Example solver_answers_case : fst (cs_Validate light) = true /\
  same_answers (snd (cs_Catenary (snd (cs_TensionHorizontal light)))) light.
Proof. exact light_twice. Qed.

(** C41: the same query twice, two answers. *)
Theorem solver_answers_refuted : exists ks, let s := cs_run (@CatenarySolver_default RNum) ks in
  fst (cs_TensionHorizontal (snd (cs_TensionHorizontal s))) <> fst (cs_TensionHorizontal s).
Proof. exact low_differs. Qed.
Print Assumptions solver_answers_refuted.

(** C69: a target that a valid catenary meets is not always found: the length at the
    minimum tension stops the secant at its first point. *)
Theorem solver_finds_target_refuted : exists ks (h : R), let s := cs_run (@CatenarySolver_default RNum) ks in
  c3_Validate (hung s h) = true /\ cs_type s = TgLength /\ c3_Length (hung s h) = cs_value s /\
  (fst (cs_TensionHorizontal s) : R) = -999999.
Proof. exact exact_missed. Qed.
Print Assumptions solver_finds_target_refuted.
