(** Theorems about calls on the line cable reloader, unloader and sagger that are defined. *)
From Coq Require Import ZArith Bool List Reals Lra.
From Verif Require Import Num NumFacts ModelBase ModelLine ModelCable ModelCatenary SpecCatenary ModelLoad ModelElongation SpecElong ModelReload SpecReload ModelSagtension
  SpecSagtension SpecSagSafe ProofSagSafe ProofSaggerSafe ProofSagCases.
Import ListNotations.

(** C155: in every history of a LineCableReloader whose queries and calls of Validate come
    after a line cable with its contents and a weather case are set, no call fails. *)
Theorem line_reloader_safe : forall env (ks : list (LrCall RNum)), lr_careful env False False ks ->
  exists r, lr_run env Reloader_new ks = Ok r.
Proof. exact line_reloader_runs. Qed.
Print Assumptions line_reloader_safe.

(** C155: so for a LineCableUnloader after a line cable is set. *)
Theorem line_unloader_safe : forall env (ks : list (LuCall RNum)), lu_careful env False ks ->
  exists u, lu_run env Unloader_new ks = Ok u.
Proof. exact line_unloader_runs. Qed.
Print Assumptions line_unloader_safe.

(** C155: in every such history of a LineCableSagger with a list of constraints with weather
    cases, no call is undefined. *)
Theorem sagger_safe : forall env (ks : list (SaCall RNum)), sa_careful env False False ks -> sa_run env Sagger_new ks <> UB.
Proof. exact sagger_runs. Qed.
Print Assumptions sagger_safe.

(** C155: with lists of one constraint, and indices 0, no call fails. *)
Theorem sagger_single_safe : forall env (ks : list (SaCall RNum)), sa_careful env False False ks -> Forall sa_single ks ->
  exists s, sa_run env Sagger_new ks = Ok s.
Proof. exact sagger_single_runs. Qed.
Print Assumptions sagger_single_safe.

(** C156: after such a history the sagger throws exactly if it has no or several constraints,
    and none gives a horizontal tension below 999999. *)
Theorem sagger_throws : forall env (ks : list (SaCall RNum)) s line cs, sa_run env Sagger_new ks = Ok s ->
  last_of pickSa_line ks None = Some line -> last_of pickSa_constraints ks None = Some cs ->
  whole line -> fastened env line -> Forall (fun c => co_weather c <> None) cs ->
  (sa_IndexConstraintControlling env s = Throw <->
   length cs <> 1%nat /\ Forall (fun c => exists x : R, tension_under line c = Ok x /\ (999999 <= x)%R) cs).
Proof. exact sagger_throwing. Qed.
Print Assumptions sagger_throws.

(** A line cable with its contents, between two structures. *)
Definition q_comp : CableComponent RNum := mkCableComponent (N := RNum) 1 0 [0%R; 1%R] [0%R; 2%R] 1 1 1 1 1 1.
Definition q_structure : LineStructure RNum := mkLS (N := RNum) [Some (mkHardware (N := RNum) 1 1 Suspension 1)] 0 0 0 0 None.
Definition q_line (w : option (WeatherLoadCase RNum)) : Strung RNum :=
  mkLC [mkConn 0 (SExt q_structure); mkConn 0 (SOwned 7)]
    (mkStringing (N := RNum) (Some (mkCable (N := RNum) 1 1 q_comp r_comp 1 1 [] 30000 60 1))
       (mkConstraint (N := RNum) (Some r_weather) CdCreep 5000 LmConstant) (sr_spacing r_string) w (Some r_weather)).
Definition q_constraint (t : R) : Constraint RNum := mkConstraint (N := RNum) (Some r_weather) CdInitial t LmHorizontal.

Lemma q_fit : fit_line [(7%nat, q_structure)] (Some (q_line (Some r_weather))).
Proof.
  exists (q_line (Some r_weather)). split; [reflexivity|]. split.
  - split; [|split; [discriminate|split; discriminate]]. eexists. split; [reflexivity|]. left. split.
    + exists 1%R. split; [right; left; reflexivity|]. rewrite Rlit0. apply Reqb_false. lra.
    + exists 2%R. split; [right; left; reflexivity|]. rewrite Rlit0. apply Reqb_false. lra.
  - right. repeat constructor; exists q_structure; eexists; split; reflexivity.
Qed.

Example line_reloader_case : lr_careful [(7%nat, q_structure)] False False
  [LrSetLine None; LrSetWeather (Some r_weather); LrSetLine (Some (q_line (Some r_weather))); LrTensionHorizontal; LrSetCondition CdLoad;
   LrTensionAverageComponent CTCore; LrValidate; LrSetWeather None; LrSetLine (Some (q_line None))].
Proof. pose proof q_fit as Q. repeat (split; [exact Q|split; [discriminate|]]). exact I. Qed.

Example line_unloader_case : lu_careful [(7%nat, q_structure)] False
  [LuSetTemperature (N := RNum) 60%R; LuSetLine (Some (q_line (Some r_weather))); LuLengthUnloaded; LuSetCondition CdCreep; LuValidate; LuSetLine None].
Proof. pose proof q_fit as Q. repeat (split; [exact Q|]). exact I. Qed.

Lemma q_constraints : forall cs, Forall (fun c => co_weather c <> None) cs -> fit_constraints (N := RNum) (Some cs).
Proof. intros cs H. exists cs. auto. Qed.

Lemma q_throws : forall env (line : Strung RNum) cs, whole line -> fastened env line -> Forall (fun c => co_weather c <> None) cs ->
  (sa_IndexConstraintControlling env (sa_fresh (Some line) (Some cs)) = Throw <->
   length cs <> 1%nat /\ Forall (fun c => exists x : R, tension_under line c = Ok x /\ (999999 <= x)%R) cs).
Proof.
  intros env line cs Wh Fa Fc.
  exact (sagger_throws env [SaSetConstraints (Some cs); SaSetLine (Some line)] _ line cs eq_refl eq_refl eq_refl Wh Fa Fc).
Qed.

Example sagger_case : let line := q_line (Some r_weather) in let env := [(7%nat, q_structure)] in
  sa_careful env False False
    [SaSetConstraints (Some [q_constraint 1000; q_constraint 2000]); SaSetLine (Some line); SaIndexConstraintControlling; SaCapacityAllowable 1; SaValidate] /\
  (let ks := [SaSetConstraints (Some [q_constraint 1000]); SaSetLine (Some line); SaIndexConstraintControlling; SaTensionHorizontalActual 0; SaValidate] in
   sa_careful env False False ks /\ Forall sa_single ks) /\
  whole line /\ fastened env line /\
  sa_IndexConstraintControlling env (sa_fresh (Some line) (Some [])) = Throw /\
  sa_IndexConstraintControlling env (sa_fresh (Some line) (Some [q_constraint 1000])) <> Throw.
Proof.
  cbv zeta. pose proof q_fit as Q. pose proof Q as (l & E & Wh & Fa). injection E as <-.
  assert (C1 : forall t, Forall (fun c : Constraint RNum => co_weather c <> None) [q_constraint t]) by (intros t; repeat constructor; discriminate).
  assert (C2 : fit_constraints (Some [q_constraint 1000; q_constraint 2000])) by (apply q_constraints; repeat constructor; discriminate).
  split; [repeat (split; [exact Q|split; [exact C2|]]); exact I|].
  split; [split; [repeat (split; [exact Q|split; [apply q_constraints, C1|]]); exact I|]|].
  { repeat constructor; cbn; intros i E; try discriminate E; injection E as <-; reflexivity. }
  split; [exact Wh|]. split; [exact Fa|]. split.
  - apply (q_throws _ _ [] Wh Fa (Forall_nil _)). split; [discriminate|constructor].
  - intros E. apply (q_throws _ _ _ Wh Fa (C1 _)) in E. destruct E as (X & _). apply X. reflexivity.
Qed.
