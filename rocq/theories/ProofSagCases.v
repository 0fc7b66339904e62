(** Cases of the theorems about line cables, from the samples. *)
From Coq Require Import ZArith Bool List Reals Lra Lia.
From Verif Require Import Num NumFacts ModelBase ModelLine ModelCable ModelCatenary SpecCatenary ModelSolver ModelLoad ModelThermal
  ModelElongation ModelReload ModelSagtension SpecSagtension SpecSolver SpecCatenary3 ProofReal ProofCatenary ProofCatenary3 ProofLoad ProofSolver ProofSolverReal ProofSolverTarget ProofSolverCases ProofSpan ProofSolverSag ProofSagger ProofSagLaws SampleSag.
Import ListNotations.
Open Scope Z_scope.

Lemma reload_run : exists r, lr_run [] Reloader_new
  [LrSetLine (Some (g_line g_own)); LrSetCondition CdInitial; LrSetWeather (Some (g_weather 96)); LrValidate; LrTensionHorizontal] = Ok r.
Proof.
  pose proof g_reload as H. cbn [lr_run lr_call obind].
  change (lr_set_weather _ _) with g_reloader.
  destruct (lr_Validate [] g_reloader) as [(v, r)| |]; try discriminate H. cbn [omap obind snd].
  destruct (lr_TensionHorizontal r) as [(h, r')| |] eqn:E; cbn [number] in H.
  - exists r'. reflexivity.
  - apply andb_prop in H as (H & _). apply andb_prop in H as (H & _). apply andb_prop in H as (H & _). apply andb_prop in H as (_ & H). discriminate H.
  - apply andb_prop in H as (H & _). apply andb_prop in H as (H & _). apply andb_prop in H as (H & _). apply andb_prop in H as (_ & H). discriminate H.
Qed.

Lemma g_validates : exists r, lr_Validate [] g_reloader = Ok (true, r) /\
  (exists a, omap fst (lr_TensionAverageComponent r CTCore) = Ok a /\ r20 10 100 <= a) /\
  (exists b, omap fst (lr_TensionAverageComponent r CTShell) = Ok b /\ r20 30 100 <= b) /\
  exists v, omap fst (lr_TensionHorizontalComponent r CTCore) = Ok v.
Proof.
  pose proof g_reload as H. destruct (lr_Validate [] g_reloader) as [(v, r)| |]; try discriminate H. exists r.
  destruct v; [|discriminate H]. cbn [andb] in H. rewrite !andb_true_iff, !negb_true_iff, !Z.ltb_lt, !Z.ltb_ge in H.
  destruct H as ((((_ & _) & H1) & H2) & H3). split; [reflexivity|].
  split; [|split].
  - destruct (lr_TensionAverageComponent r CTCore) as [(a, r')| |]; [|exfalso; unfold number in H1; vm_compute in H1; exact (H1 eq_refl)..].
    exists a. split; [reflexivity|exact H1].
  - destruct (lr_TensionAverageComponent r CTShell) as [(a, r')| |]; [|exfalso; unfold number in H2; vm_compute in H2; exact (H2 eq_refl)..].
    exists a. split; [reflexivity|exact H2].
  - destruct (lr_TensionHorizontalComponent r CTCore) as [(a, r')| |]; try discriminate H3. exists a. reflexivity.
Qed.

(** The core carries one part and the shell the other. *)
Lemma parts_case : exists (ks : list (LrCall X20)) r a b v, lr_run [] Reloader_new ks = Ok r /\
  omap fst (lr_TensionAverageComponent r CTCore) = Ok a /\ r20 10 100 <= a /\
  omap fst (lr_TensionAverageComponent r CTShell) = Ok b /\ r20 30 100 <= b /\
  omap fst (lr_TensionHorizontalComponent r CTCore) = Ok v.
Proof.
  destruct g_validates as (r & V & (a & A & A') & (b & B & B') & v & W).
  exists [LrSetLine (Some (g_line g_own)); LrSetCondition CdInitial; LrSetWeather (Some (g_weather 96)); LrValidate], r, a, b, v.
  split; [|auto 10]. cbn [lr_run lr_call obind]. change (lr_set_weather _ _) with g_reloader. rewrite V. reflexivity.
Qed.

Lemma unload_run : exists u x, lu_run [] Unloader_new
  [LuSetLine (Some (g_line g_own)); LuSetCondition CdInitial; LuSetSpacing (g_spacing 9); LuSetTemperature (x20 80); LuValidate] = Ok u /\
  omap fst (lu_LengthUnloaded u) = Ok x /\ r20 85 10 < x < r20 86 10.
Proof.
  pose proof g_unload as H. cbn [lu_run lu_call obind]. change (lu_set_temperature _ _) with g_unloader.
  destruct (lu_Validate [] g_unloader) as [(v, u)| |]; try discriminate H. cbn [omap obind snd]. exists u.
  rewrite !andb_true_iff, !Z.ltb_lt in H. destruct H as ((_ & H1) & H2).
  destruct (lu_LengthUnloaded u) as [(x, u')| |]; [|exfalso; vm_compute in H2; discriminate H2..]. exists x. auto.
Qed.

Lemma sag_case : exists s1 l, sa_IndexConstraintControlling [] g_sagger = Ok (1, s1) /\ sa_line s1 = Some l /\ Strung_Validate [] l = Ok true.
Proof.
  pose proof g_sag as H. destruct (sa_IndexConstraintControlling [] g_sagger) as [(i, s)| |]; try discriminate H.
  apply andb_prop in H as (E & H). apply Z.eqb_eq in E as ->. destruct (sa_line s) as [l|] eqn:L; [|discriminate H].
  exists s, l. destruct (Strung_Validate [] l) as [[|]| |]; try discriminate H. auto.
Qed.

Lemma sag_run : exists (ks : list (SaCall X20)) s s1, sa_run [] Sagger_new ks = Ok s /\
  last_of pickSa_line ks None = Some g_loose /\ last_of pickSa_constraints ks None = Some g_constraints /\
  sa_IndexConstraintControlling [] s = Ok (1, s1).
Proof.
  destruct sag_case as (s1 & l & E & _). exists [SaSetConstraints (Some g_constraints); SaSetLine (Some g_loose)], g_sagger, s1.
  auto.
Qed.

(** A query before the last setter. *)
Lemma sag_history_case : exists (ks : list (SaCall X20)) s, In SaIndexConstraintControlling ks /\ sa_run [] Sagger_new ks = Ok s /\
  last_of pickSa_line ks None = Some g_loose /\ last_of pickSa_constraints ks None = Some [g_own] /\ sa_line s <> Some g_loose.
Proof.
  destruct sag_case as (s1 & l & E & L & V).
  exists [SaSetConstraints (Some g_constraints); SaSetLine (Some g_loose); SaIndexConstraintControlling; SaSetConstraints (Some [g_own])],
    (sa_set_constraints s1 (Some [g_own])).
  split; [cbn; auto|]. split. { cbn [sa_run sa_call obind]. change (sa_set_line _ _) with g_sagger. rewrite E. reflexivity. }
  split; [reflexivity|]. split; [reflexivity|]. cbn [sa_set_constraints sa_line]. rewrite L. intros C. injection C as ->.
  vm_compute in V. discriminate V.
Qed.

(** The line limited by its sag exceeds the constraint. *)
Lemma exceeds : exists s x y z, sa_Validate [] g_sagger_sag = Ok (true, s) /\ omap fst (sa_LimitConstraint [] s) = Ok x /\ x = r20 3 4 /\
  omap fst (sa_TensionHorizontalActual [] s 0) = Ok y /\ x20 43 < y /\ omap fst (sa_CapacityAllowable [] s 0) = Ok z /\ r20 107 100 < z.
Proof.
  pose proof g_sag_sag as H. destruct (sa_Validate [] g_sagger_sag) as [(v, s)| |]; try discriminate H. exists s.
  rewrite !andb_true_iff, !Z.ltb_lt, Z.eqb_eq in H. destruct H as (((-> & H1) & H2) & H3).
  destruct (sa_LimitConstraint [] s) as [(x, t)| |]; [|exfalso; vm_compute in H1; discriminate H1..].
  destruct (sa_TensionHorizontalActual [] s 0) as [(y, t1)| |]; [|exfalso; vm_compute in H2; discriminate H2..].
  destruct (sa_CapacityAllowable [] s 0) as [(z, t2)| |]; [|exfalso; vm_compute in H3; discriminate H3..].
  exists x, y, z. auto 10.
Qed.

Lemma line_case : Strung_Validate [] (g_line g_own) = Ok true /\ ValidateConnections [] (lc_connections (g_line g_own)) = Ok false.
Proof. vm_compute. auto. Qed.

Lemma changes_case : exists s1, omap fst (sa_Validate [] g_sagger) = Ok false /\
  sa_IndexConstraintControlling [] g_sagger = Ok (1, s1) /\ omap fst (sa_Validate [] s1) = Ok true.
Proof.
  destruct sag_case as (s1 & l & E & L & V). exists s1.
  destruct (validate_changes (N := X20) [] g_loose g_constraints 1 s1) as (A & B);
    [reflexivity|exact E|discriminate| |intros l' L'; rewrite L in L'; injection L' as <-; exact V|auto].
  vm_compute. reflexivity.
Qed.

(** ** A ruling span in exact arithmetic *)
Open Scope R_scope.
Definition r_weather : WeatherLoadCase RNum := mkWeatherLoadCase (N := RNum) 0 0 60 0.
Definition r_comp : CableComponent RNum := mkCableComponent (N := RNum) 0 0 [] [] 0 0 0 0 1 1.
Definition r_string : Stringing RNum :=
  mkStringing (N := RNum) (Some (mkCable (N := RNum) 1 1 r_comp r_comp 1 1 [] 30000 60 1))
    (mkConstraint (N := RNum) (Some r_weather) CdInitial 5000 LmConstant) (span 1000) (Some r_weather) (Some r_weather).

Lemma r_load : ModelSagtension.unit_load r_string (Some r_weather) = Ok (hang 1).
Proof.
  unfold ModelSagtension.unit_load. cbn [sr_cable r_string deref obind]. erewrite unit_load_value; [|reflexivity|reflexivity].
  f_equal. unfold hang, ring. cbn. f_equal; lra.
Qed.

(** A new catenary with the inputs of a level one answers as it does. *)
Lemma r_twin : forall (c : Catenary3d RNum) h, c3_is_updated c = false -> c3_direction c = ADPositive -> c3_spacing c = span 1000 ->
  c3_weight c = hang 1 -> (c3_tension_horizontal c : R) = h -> c3_Validate c = c3_Validate (level 1000 1 h).
Proof.
  intros c h U D A W T. assert (I : c3_current c) by (intros V; rewrite U in V; discriminate V).
  assert (TW : twin_h c (level 1000 1 h)).
  { split; [|exact T]. refine (conj I (conj _ (conj A (conj W D)))). intros V; discriminate V. }
  assert (Q := twin_answer _ _ Q3Validate TW). cbn [c3_answer] in Q. injection Q as Q. exact Q.
Qed.

Lemma r_tension : (constraint_tension r_string (hang 1) : R) = 5000.
Proof.
  unfold constraint_tension. cbn [r_string sr_constraint co_type]. unfold cs_TensionHorizontal, cs_ensure.
  cbn [cs_set_type tension_solver cs_set_weight cs_set_value cs_set_spacing cs_is_updated CatenarySolver_default].
  unfold cs_Update. cbn [cs_type cs_value SolveFromConstant cs_catenary]. set (c := c3_set_tension _ _).
  assert (T : (c3_tension_horizontal c : R) = 5000).
  { transitivity (5000 * Vector3d_Magnitude (hang 1)); [reflexivity|]. rewrite (proj2 (level_mags 1000 1 ltac:(lra) ltac:(lra))). ring. }
  assert (V : c3_Validate c = true).
  { rewrite (r_twin c 5000); [apply level_valid; lra|reflexivity..|exact T]. }
  rewrite V. cbn [fst cs_with cs_catenary].
  assert (I : c3_current c) by (intros U; discriminate U).
  transitivity (c3_tension_horizontal c : R); [exact (proj2 (after_Validate_twin c I))|exact T].
Qed.

Lemma span_case : exists k, CatenaryRulingSpan r_string = Ok k /\ c3_Validate k = true.
Proof.
  unfold CatenaryRulingSpan. change (co_weather _) with (Some r_weather). rewrite r_load. cbn [obind].
  eexists. split; [reflexivity|]. set (c := c3_set_tension _ _).
  rewrite (r_twin c 5000); [apply level_valid; lra|reflexivity..|exact r_tension].
Qed.

(** A sag limit of a light span. *)
Definition r_sagging : Stringing RNum :=
  mkStringing (N := RNum) (sr_cable r_string) (mkConstraint (N := RNum) (Some r_weather) CdInitial (middle_sag (4 / 10) 1) LmSag)
    (span (4 / 10)) (Some r_weather) (Some r_weather).

Lemma span_sag : exists k, CatenaryRulingSpan r_sagging = Ok k /\ c3_Validate k = true /\
  co_type (sr_constraint r_sagging) = LmSag /\ (c3_tension_horizontal k : R) = 21 / 100.
Proof.
  unfold CatenaryRulingSpan. change (co_weather _) with (Some r_weather).
  change (ModelSagtension.unit_load r_sagging (Some r_weather)) with (ModelSagtension.unit_load r_string (Some r_weather)).
  rewrite r_load. cbn [obind]. eexists. split; [reflexivity|]. set (c := c3_set_tension _ _).
  assert (T : (c3_tension_horizontal c : R) = 21 / 100).
  { apply (middle_found (4 / 10) 1); try reflexivity; try lra.
    - intros U; discriminate U.
    - cbn. rn. lra. }
  split; [|split; [reflexivity|exact T]].
  assert (I : c3_current c) by (intros V; discriminate V).
  assert (TW : twin_h c (level (4 / 10) 1 (21 / 100))).
  { split; [|exact T]. refine (conj I (conj _ (conj _ (conj _ _)))); try reflexivity. intros V; discriminate V. }
  assert (Q := twin_answer _ _ Q3Validate TW). cbn [c3_answer] in Q. injection Q as Q. rewrite Q. apply level_valid; lra.
Qed.

(** ** The statements of the properties *)
Lemma span_constant : exists k, CatenaryRulingSpan r_string = Ok k /\ c3_Validate k = true /\
  co_type (sr_constraint r_string) = LmConstant.
Proof. destruct span_case as (k & A & B). exists k. auto. Qed.

Lemma controlling_R : forall env (ks : list (SaCall RNum)) s i s1, sa_run env Sagger_new ks = Ok s ->
  sa_IndexConstraintControlling env s = Ok (i, s1) -> i <> (-9999)%Z ->
  exists line cs ts k, last_of pickSa_line ks None = Some line /\ last_of pickSa_constraints ks None = Some cs /\
    Forall2 (fun c x => tension_under line c = Ok x) cs ts /\ i = Z.of_nat k /\ first_lowest ts k.
Proof. intros env ks s i s1 R E I. exact (controlling (N := RNum) _ RNum_ord env ks s i s1 Logic.I R (fun _ _ _ _ _ _ _ _ => Logic.I) E I). Qed.

Lemma controlling_64 : forall lm env (ks : list (SaCall (B64 lm))) s i s1, sa_run env Sagger_new ks = Ok s ->
  (forall line cs c x, last_of pickSa_line ks None = Some line -> last_of pickSa_constraints ks None = Some cs -> In c cs ->
     tension_under line c = Ok x -> num64 x) ->
  sa_IndexConstraintControlling env s = Ok (i, s1) -> i <> (-9999)%Z ->
  exists line cs ts k, last_of pickSa_line ks None = Some line /\ last_of pickSa_constraints ks None = Some cs /\
    Forall2 (fun c x => tension_under line c = Ok x) cs ts /\ i = Z.of_nat k /\ first_lowest ts k.
Proof.
  intros lm env ks s i s1 R G E I. refine (controlling (N := B64 lm) _ (B64_ord lm) env ks s i s1 _ R G E I). vm_compute. reflexivity.
Qed.

Lemma changes_refuted : exists (s s1 : Sagger X20) i, sa_constraints s1 = sa_constraints s /\
  omap fst (sa_Validate [] s) = Ok false /\ sa_IndexConstraintControlling [] s = Ok (i, s1) /\ omap fst (sa_Validate [] s1) = Ok true.
Proof.
  destruct changes_case as (s1 & A & B & C). exists g_sagger, s1, 1%Z. split; [|auto].
  destruct (sagger_results (N := X20) [] [SaSetConstraints (Some g_constraints); SaSetLine (Some g_loose)] g_sagger 1%Z s1 eq_refl B ltac:(discriminate))
    as (line & cs & c & x & _ & L & _ & _ & K & _). rewrite K. symmetry. exact L.
Qed.

Lemma exceeds_refuted : exists s x y z, sa_Validate [] g_sagger_sag = Ok (true, s) /\
  omap fst (sa_LimitConstraint [] s) = Ok x /\ x = r20 3 4 /\
  omap fst (sa_TensionHorizontalActual [] s 0) = Ok y /\ (x20 43 < y)%Z /\ co_limit g_taut = x20 40 /\
  omap fst (sa_CapacityAllowable [] s 0) = Ok z /\ (r20 107 100 < z)%Z.
Proof. destruct exceeds as (s & x & y & z & H). exists s, x, y, z. intuition. Qed.

Lemma null_refuted : (forall (N : Num) env (l : option (Strung N)), sa_Validate env (sa_fresh l None) = UB) /\
  (forall (N : Num) env (line : Strung N), Strung_Validate env line = Ok true -> sa_Validate env (sa_fresh (Some line) (Some [])) = Throw).
Proof. split; [exact @null_constraints|exact @no_constraints]. Qed.

Lemma connections_refuted : (exists (line : Strung X20), ValidateConnections [] (lc_connections line) = Ok false /\
    Strung_Validate [] line = Ok true) /\
  (forall (N : Num) env (p : Stringing N) cs cs' b b', ValidateConnections env cs = Ok b -> ValidateConnections env cs' = Ok b' ->
     Strung_Validate env (mkLC cs p) = Strung_Validate env (mkLC cs' p)).
Proof. split; [|exact @validate_connections]. exists (g_line g_own). destruct line_case. auto. Qed.

Lemma weather_refuted : (exists r, lr_Validate [] g_reloader = Ok (true, r)) /\
  (forall (N : Num) env l c (w : WeatherLoadCase N) r, lr_Validate env (lr_fresh l c (Some w)) = Ok (true, r) ->
     lr_Validate env (lr_fresh l c None) = UB).
Proof. split; [|exact @null_weather]. destruct g_validates as (r & V & _). exists r. exact V. Qed.
