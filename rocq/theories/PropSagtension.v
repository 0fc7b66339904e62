(** Theorems about LineCable, LineCableReloader, LineCableUnloader and LineCableSagger. *)
From Coq Require Import ZArith Bool List Reals Lra.
From Verif Require Import Num NumFacts ModelBase ModelLine ModelCatenary SpecCatenary ModelSolver SpecSolver ModelLoad ModelThermal
  ModelElongation ModelReload ModelSagtension SpecSagtension ProofSagHistory ProofSagUnload ProofSagger ProofSagLaws ProofSagParts
  SampleSag ProofSagCases.
Import ListNotations.
Open Scope R_scope.

(** C49: in an arithmetic whose order obeys the laws for the tensions, the controlling
    constraint is the first with the lowest reloaded tension, whatever was asked before. *)
Theorem sagger_controlling : forall (N : Num) (good : N -> Prop), OrdLaws N good ->
  forall env (ks : list (SaCall N)) s i s1, good (fofZ 999999) -> sa_run env Sagger_new ks = Ok s ->
  (forall line cs c x, last_of pickSa_line ks None = Some line -> last_of pickSa_constraints ks None = Some cs -> In c cs ->
     tension_under line c = Ok x -> good x) ->
  sa_IndexConstraintControlling env s = Ok (i, s1) -> i <> (-9999)%Z ->
  exists line cs ts k, last_of pickSa_line ks None = Some line /\ last_of pickSa_constraints ks None = Some cs /\
    Forall2 (fun c x => tension_under line c = Ok x) cs ts /\ i = Z.of_nat k /\ first_lowest ts k.
Proof. exact @controlling. Qed.
Print Assumptions sagger_controlling.

(** C49 in exact arithmetic. *)
Theorem sagger_controlling_exact : forall env (ks : list (SaCall RNum)) s i s1, sa_run env Sagger_new ks = Ok s ->
  sa_IndexConstraintControlling env s = Ok (i, s1) -> i <> (-9999)%Z ->
  exists line cs ts k, last_of pickSa_line ks None = Some line /\ last_of pickSa_constraints ks None = Some cs /\
    Forall2 (fun c x => tension_under line c = Ok x) cs ts /\ i = Z.of_nat k /\ first_lowest ts k.
Proof. exact controlling_R. Qed.
Print Assumptions sagger_controlling_exact.

(** C49 in doubles, for tensions that are not NaN. *)
Theorem sagger_controlling_double : forall lm env (ks : list (SaCall (B64 lm))) s i s1, sa_run env Sagger_new ks = Ok s ->
  (forall line cs c x, last_of pickSa_line ks None = Some line -> last_of pickSa_constraints ks None = Some cs -> In c cs ->
     tension_under line c = Ok x -> num64 x) ->
  sa_IndexConstraintControlling env s = Ok (i, s1) -> i <> (-9999)%Z ->
  exists line cs ts k, last_of pickSa_line ks None = Some line /\ last_of pickSa_constraints ks None = Some cs /\
    Forall2 (fun c x => tension_under line c = Ok x) cs ts /\ i = Z.of_nat k /\ first_lowest ts k.
Proof. exact controlling_64. Qed.
Print Assumptions sagger_controlling_double.

Example sagger_controlling_case : OrdLaws X20 (fun _ => True) /\
  exists (ks : list (SaCall X20)) s s1, sa_run [] Sagger_new ks = Ok s /\
  last_of pickSa_line ks None = Some g_loose /\ last_of pickSa_constraints ks None = Some g_constraints /\
  sa_IndexConstraintControlling [] s = Ok (1%Z, s1).
Proof. exact (conj X20_ord sag_run). Qed.

(** C93: the answers of a line cable reloader after any calls are those of a new one with
    the last arguments. *)
Theorem line_reloader_history : forall (N : Num) (env : Env N) (ks : list (LrCall N)) r, lr_run env Reloader_new ks = Ok r ->
  lr_alike env r (lr_fresh (last_of pickLr_line ks None) (last_of pickLr_condition ks CdNull) (last_of pickLr_weather ks None)).
Proof. exact @reloader_history. Qed.
Print Assumptions line_reloader_history.

Example line_reloader_case : exists r, lr_run [] Reloader_new
  [LrSetLine (Some (g_line g_own)); LrSetCondition CdInitial; LrSetWeather (Some (g_weather 96)); LrValidate; LrTensionHorizontal] = Ok r.
Proof. exact reload_run. Qed.

(** C94: the same for the line cable unloader. *)
Theorem line_unloader_history : forall (N : Num) (env : Env N) (ks : list (LuCall N)) u, lu_run env Unloader_new ks = Ok u ->
  lu_alike env u (lu_fresh (last_of pickLu_line ks None) (last_of pickLu_condition ks CdNull)
                    (last_of pickLu_spacing ks Vector3d_default) (last_of pickLu_temperature ks ferr)).
Proof. exact @unloader_history. Qed.
Print Assumptions line_unloader_history.

Example line_unloader_case : exists u x, lu_run [] Unloader_new
  [LuSetLine (Some (g_line g_own)); LuSetCondition CdInitial; LuSetSpacing (g_spacing 9); LuSetTemperature (x20 80); LuValidate] = Ok u /\
  omap fst (lu_LengthUnloaded u) = Ok x /\ (r20 85 10 < x < r20 86 10)%Z.
Proof. exact unload_run. Qed.

(** C95: the queries of a sagger answer as those of a new sagger with the last arguments,
    although they write the limit of the line cable. *)
Theorem sagger_queries_history : forall (N : Num) env (ks : list (SaCall N)) s, sa_run env Sagger_new ks = Ok s ->
  sa_alike env s (sa_fresh (last_of pickSa_line ks None) (last_of pickSa_constraints ks None)).
Proof. exact @sagger_history. Qed.
Print Assumptions sagger_queries_history.

Example sagger_queries_case : exists (ks : list (SaCall X20)) s, In SaIndexConstraintControlling ks /\ sa_run [] Sagger_new ks = Ok s /\
  last_of pickSa_line ks None = Some g_loose /\ last_of pickSa_constraints ks None = Some [g_own] /\ sa_line s <> Some g_loose.
Proof. exact sag_history_case. Qed.

(** C95 is false of Validate: it refuses a line cable with a negative limit, and accepts it
    after a query. *)
Theorem sagger_validate_refuted : exists (s s1 : Sagger X20) i, sa_constraints s1 = sa_constraints s /\
  omap fst (sa_Validate [] s) = Ok false /\ sa_IndexConstraintControlling [] s = Ok (i, s1) /\ omap fst (sa_Validate [] s1) = Ok true.
Proof. exact changes_refuted. Qed.
Print Assumptions sagger_validate_refuted.

(** C96: a sagger that succeeds sets only the limit of the line cable, for the limits by
    tension or constant to the value of the line cable strung to the controlling constraint,
    and the actual values are those of the sagged line cable at the constraints. *)
Theorem sagger_sags : forall (N : Num) env (ks : list (SaCall N)) s i s1, sa_run env Sagger_new ks = Ok s ->
  sa_IndexConstraintControlling env s = Ok (i, s1) -> i <> (-9999)%Z -> exists line cs c x,
    last_of pickSa_line ks None = Some line /\ last_of pickSa_constraints ks None = Some cs /\ vector_at cs i = Ok c /\
    sa_line s1 = Some (with_limit line x) /\ sa_constraints s1 = Some cs /\ omap fst (sa_LimitConstraint env s) = Ok x /\
    match limited (co_type (sr_constraint (lc_payload line))) with
    | Some q => omap (fun k => c3_answer k q) (catenary_under line c) = Ok (ANum x)
    | None => x = co_limit (sr_constraint (lc_payload line))
    end /\
    (forall j c', vector_at cs j = Ok c' ->
       omap fst (sa_TensionHorizontalActual env s j) = omap c3_tension_horizontal (catenary_at (with_limit line x) c') /\
       omap fst (sa_CatenaryConstantActual env s j) = omap c3_Constant (catenary_at (with_limit line x) c') /\
       omap fst (sa_TensionSupportActual env s j) = omap c3_TensionMax (catenary_at (with_limit line x) c') /\
       omap fst (sa_CapacityAllowable env s j) =
         omap (fun k => match co_type c' with
                        | LmHorizontal => fdiv (c3_tension_horizontal k) (co_limit c')
                        | LmConstant => fdiv (c3_Constant k) (co_limit c')
                        | LmSupport => fdiv (c3_TensionMax k) (co_limit c')
                        | _ => ferr
                        end) (catenary_at (with_limit line x) c')).
Proof. exact @sagger_results. Qed.
Print Assumptions sagger_sags.

Example sagger_sags_case : exists (ks : list (SaCall X20)) s s1, sa_run [] Sagger_new ks = Ok s /\
  last_of pickSa_line ks None = Some g_loose /\ last_of pickSa_constraints ks None = Some g_constraints /\
  sa_IndexConstraintControlling [] s = Ok (1%Z, s1).
Proof. exact sag_run. Qed.

(** C97 is false: the limit of a line cable limited by its sag (or length) stays, so a valid
    sagger leaves it tighter than its only design constraint allows. *)
Theorem sagger_exceeds_refuted : exists s x y z, sa_Validate [] g_sagger_sag = Ok (true, s) /\
  omap fst (sa_LimitConstraint [] s) = Ok x /\ x = r20 3 4 /\
  omap fst (sa_TensionHorizontalActual [] s 0) = Ok y /\ (x20 43 < y)%Z /\ co_limit g_taut = x20 40 /\
  omap fst (sa_CapacityAllowable [] s 0) = Ok z /\ (r20 107 100 < z)%Z.
Proof. exact exceeds_refuted. Qed.
Print Assumptions sagger_exceeds_refuted.

(** C98 is false: Validate of a sagger reads a null list of constraints, and throws for an
    empty one. *)
Theorem sagger_null_refuted : (forall (N : Num) env (l : option (Strung N)), sa_Validate env (sa_fresh l None) = UB) /\
  (forall (N : Num) env (line : Strung N), Strung_Validate env line = Ok true -> sa_Validate env (sa_fresh (Some line) (Some [])) = Throw).
Proof. exact null_refuted. Qed.
Print Assumptions sagger_null_refuted.

Example sagger_null_case : Strung_Validate [] (g_line g_own) = Ok true.
Proof. exact (proj1 line_case). Qed.

(** C99 is false: Validate of a line cable accepts it though ValidateConnections refuses its
    connections, and never depends on them. *)
Theorem line_validate_refuted : (exists (line : Strung X20), ValidateConnections [] (lc_connections line) = Ok false /\
    Strung_Validate [] line = Ok true) /\
  (forall (N : Num) env (p : Stringing N) cs cs' b b', ValidateConnections env cs = Ok b -> ValidateConnections env cs' = Ok b' ->
     Strung_Validate env (mkLC cs p) = Strung_Validate env (mkLC cs' p)).
Proof. exact connections_refuted. Qed.
Print Assumptions line_validate_refuted.

(** C100 is false: Validate of a reloader that is valid with a weather case reads a null
    one. *)
Theorem reloader_null_refuted : (exists r, lr_Validate [] g_reloader = Ok (true, r)) /\
  (forall (N : Num) env l c (w : WeatherLoadCase N) r, lr_Validate env (lr_fresh l c (Some w)) = Ok (true, r) ->
     lr_Validate env (lr_fresh l c None) = UB).
Proof. exact weather_refuted. Qed.
Print Assumptions reloader_null_refuted.

(** C101: the catenary of a valid line cable meets its constraint: horizontal tensions and
    constants exactly, lengths within 1/100 over the unit weight, sags within 4/300 over the
    unit weight, and the tension at the higher end within 1/100 times the length of the
    spacing over its x. *)
Theorem ruling_span_meets : forall (s : Stringing RNum) k, CatenaryRulingSpan s = Ok k -> c3_Validate k = true ->
  let x : R := co_limit (sr_constraint s) in
  match co_type (sr_constraint s) with
  | LmHorizontal => (c3_tension_horizontal k : R) = x
  | LmConstant => (c3_Constant k : R) = x
  | LmLength => Rabs (c3_Length k - x) <= / Vector3d_Magnitude (c3_weight k) / 100
  | LmSag => Rabs (c3_Sag k - x) <= 4 / 3 / Vector3d_Magnitude (c3_weight k) / 100
  | LmSupport =>
      Rabs (c3_Tension k (if Rle_dec (v3z (sr_spacing s)) 0 then 0 else 1) - x) <=
      Vector3d_Magnitude (c3_spacing k) / v3x (c3_spacing k) / 100
  | LmNull => False
  end.
Proof. exact ruling_span. Qed.
Print Assumptions ruling_span_meets.

Example ruling_span_case : exists k, CatenaryRulingSpan r_string = Ok k /\ c3_Validate k = true /\
  co_type (sr_constraint r_string) = LmConstant.
Proof. exact span_constant. Qed.

Example ruling_span_sag_case : exists k, CatenaryRulingSpan r_sagging = Ok k /\ c3_Validate k = true /\
  co_type (sr_constraint r_sagging) = LmSag /\ (c3_tension_horizontal k : R) = 21 / 100.
Proof. exact span_sag. Qed.

(** C102: the average tension of the cable is the sum of those of its core and shell, and the
    horizontal part of each is its average tension times the ratio of the horizontal to the
    average tension of the reloaded catenary. *)
Theorem reloader_components : forall (N : Num) env (ks : list (LrCall N)) r, lr_run env Reloader_new ks = Ok r ->
  (forall v, omap fst (lr_TensionAverageComponent r CTCombined) = Ok v ->
     exists a b, omap fst (lr_TensionAverageComponent r CTCore) = Ok a /\ omap fst (lr_TensionAverageComponent r CTShell) = Ok b /\
       (v = fadd a b \/ (v = ferr /\ a = ferr /\ b = ferr))) /\
  (forall t v, omap fst (lr_TensionHorizontalComponent r t) = Ok v ->
     exists x k, omap fst (lr_TensionAverageComponent r t) = Ok x /\ omap fst (lr_CatenaryReloaded r) = Ok k /\
       (v = fmul x (fdiv (c3_tension_horizontal k) (c3_TensionAverage k 100)) \/ (v = ferr /\ x = ferr))).
Proof. exact @parts. Qed.
Print Assumptions reloader_components.

Example reloader_components_case : exists (ks : list (LrCall X20)) r a b v, lr_run [] Reloader_new ks = Ok r /\
  omap fst (lr_TensionAverageComponent r CTCore) = Ok a /\ (r20 10 100 <= a)%Z /\
  omap fst (lr_TensionAverageComponent r CTShell) = Ok b /\ (r20 30 100 <= b)%Z /\
  omap fst (lr_TensionHorizontalComponent r CTCore) = Ok v.
Proof. exact parts_case. Qed.
