(** Theorems about when the calls on the sag position corrector and on the cable position
    locator return. *)
From Coq Require Import ZArith Bool List Reals Lra.
From Verif Require Import Num NumFacts ModelBase ModelAlignment ModelLine ModelCatenary SpecCatenary ModelCable ModelLoad ModelElongation ModelReload
  ModelThermal ModelSagtension ModelSagging ModelLocator SpecSagging SpecSagSafe SpecTransmission SpecLocator SpecDefined ProofDefined ProofLocatorSafe
  ProofSagging ProofCorrectorCases ProofDefinedCases.
Import ListNotations.
Open Scope list_scope.

(** C157: whether the calls on a corrector return depends on the last arguments only.  Validate
    needs the structures of the connections, too. *)
Theorem corrector_returns : forall (N : Num) (ks : list (PcCall N)) s, pc_run Corrector_new ks = Ok s ->
  let l := last_of pickPc_linecable ks None in
  let v := corrector_verdict l (last_of pickPc_points ks None) in
  verdict (CatenariesClipped s) = v /\ verdict (CatenariesPulleyed s) = v /\ verdict (ClippingOffsets s) = v /\
  verdict (SagCorrections s) = v /\
  forall env, (forall line, l = Some line -> fastened env line) -> verdict (pc_Validate env s) = v.
Proof. exact @corrector_verdicts. Qed.
Print Assumptions corrector_returns.

(** A line with two points, with one, and with none. *)
Example corrector_returns_case :
  corrector_verdict (Some (rl_line 2)) (Some rl_points) = Ok tt /\
  (exists p, corrector_verdict (Some (rl_line 2)) (Some [p]) = UB) /\
  corrector_verdict (Some (rl_line 2)) (Some []) = Throw /\ fastened [] (rl_line 2).
Proof. exact verdict_cases. Qed.

(** C158: the calls on a locator with a line, the index of a line cable and a unit weight are
    defined, but for the index of the last attachment (C51). *)
Theorem locator_safe : forall lm (P : Type) (ks : list (PlCall (B64 lm) P)) s, Forall (takes_lines (N := B64 lm) num64) ks ->
  pl_run Locator_new ks = Ok s -> equipped s ->
  PointsCableAttachment s <> UB /\ (forall parts, parts <> UB -> pl_Validate parts s <> UB) /\
  forall index num, (forall ps s', PointsCableAttachment s = Ok (Some ps, s') -> index <> (Z.of_nat (length ps) - 1)%Z) ->
    PointsCable s index num <> UB.
Proof. exact (fun lm => @locator_defined (B64 lm) num64 (B64_ord lm)). Qed.
Print Assumptions locator_safe.

Example locator_safe_case : exists ks s ps s', Forall (takes_lines (N := SampleMath.M64) num64) ks /\ pl_run (@Locator_new SampleMath.M64 unit) ks = Ok s /\ equipped s /\
  PointsCableAttachment s = Ok (Some ps, s') /\ length ps = 3%nat.
Proof. exact locator_equipped. Qed.
