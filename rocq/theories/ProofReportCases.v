(** Cases and witnesses for the messages of Validate functions. *)
From Coq Require Import ZArith Bool List String Lia.
From Verif Require Import Num ModelBase ModelLine ModelCable ModelCatenary ModelSolver ModelLoad ModelThermal
  ModelElongation ModelReload ModelSagtension SpecSagtension ModelValidate SpecValidate ModelReport SpecReport SampleSag
  ProofReportSag.
Import ListNotations.
Open Scope Z_scope.

(** What was returned and the messages. *)
Definition told {S : Type} (o : outcome (Check * S)) : option Check := match o with Ok (c, _) => Some c | _ => None end.

Lemma told_spec : forall S (o : outcome (Check * S)) c, told o = Some c -> exists s, o = Ok (c, s).
Proof. intros S [[c' s]| |] c H; try discriminate. injection H as <-. eauto. Qed.

Definition missing : Message := mkMessage "Not enough connections" "LINE CABLE".

(** ** A message without a description *)
Lemma reloader_blank : exists r', Reloader_report [] (lr_fresh (Some (g_line g_own)) CdNull (Some (g_weather 96))) (Some []) =
  Ok ((false, Some [missing; mkMessage "" "LINE CABLE LOADER BASE"; mkMessage "Invalid reloaded condition" "LINE CABLE RELOADER"]), r').
Proof. apply told_spec. vm_compute. reflexivity. Qed.

Lemma unloader_blank : exists u', Unloader_report [] (lu_fresh (Some (g_line g_own)) CdInitial (g_spacing 0) (x20 80)) (Some []) =
  Ok ((false, Some [missing; mkMessage "" "LINE CABLE LOADER BASE";
                    mkMessage "Invalid horizontal attachment spacing" "LINE CABLE UNLOADER"]), u').
Proof. apply told_spec. vm_compute. reflexivity. Qed.

(** ** Elongation models *)
Definition h_comp (slope modulus : Z) : CableComponent X20 :=
  mkCableComponent (N := X20) (x20 1) (r20 1 4096) (map x20 [0; slope; 0; 0; 0]) (map x20 [0; slope; 0; 0; 0]) (x20 16)
    (x20 16) (x20 1) (x20 modulus) (x20 1) (x20 1).
Definition h_cable (slope modulus : Z) : Cable X20 :=
  mkCable (N := X20) (x20 1) (x20 1) (h_comp slope modulus) (h_comp slope modulus) (r20 1 12) (x20 1) [] (x20 16) (x20 64) (r20 1 256).
(** A new model with the cable, a state and a stretch of the given type. *)
Definition h_model (slope modulus : Z) (t : PolynomialType) : outcome (ElongModel X20) :=
  do m <- em_set_cable ElongModel_new (Some (sg_set_base (Some (h_cable slope modulus))));
  Ok (em_set_stretch (em_set_state m (mkCableState (N := X20) (x20 64) PTLoadStrain)) (mkStretchState (N := X20) (x20 64) t (x20 0))).

Definition no_type : Message := mkMessage "Invalid polynomial type" "CABLE STATE".

Lemma told_model : forall A S (o : outcome A) (f : A -> outcome (Check * S)) c,
  match o with Ok m => told (f m) | _ => None end = Some c -> exists m m', o = Ok m /\ f m = Ok (c, m').
Proof. intros A S [m| |] f c H; try discriminate. apply told_spec in H as (m' & H). eauto. Qed.

Lemma model_untyped : forall text warn, exists m m', h_model 6 6 PTNull = Ok m /\
  ElongModel_report text warn m (Some []) = Ok ((true, Some [no_type; no_type; no_type]), m').
Proof. intros text warn. apply told_model. destruct warn; vm_compute; reflexivity. Qed.

(** The polynomials are steeper than the modulus of the component. *)
Definition steep_creep (text : X20 -> string) : Message :=
  mkMessage ("Slope of creep polynomial tangent is greater than the tension elastic area modulus at strain = " ++ text (x20 0))
    "CABLE COMPONENT ELONGATION MODEL".
Definition steep_load (text : X20 -> string) : Message :=
  mkMessage ("Slope of load-strain polynomial tangent is greater than the tension elastic area modulus at strain = " ++ text (x20 0))
    "CABLE COMPONENT ELONGATION MODEL".

Lemma model_steep : forall text, exists m m', h_model 6 2 PTLoadStrain = Ok m /\
  ElongModel_report text true m (Some []) =
    Ok ((false, Some (repeat (steep_creep text) 50 ++ repeat (steep_load text) 50 ++ repeat (steep_creep text) 50 ++
                      repeat (steep_load text) 50)%list), m').
Proof.
  intros text. apply told_model. vm_compute. reflexivity.
Qed.

(** ** The sagger *)
Definition h_sagger : Sagger X20 :=
  sa_fresh (Some (g_strung g_heavy (g_constraint 64 (r20 1 10) LmSag))) (Some [g_constraint (-50) (x20 40) LmHorizontal]).
Definition new_limit : Message := mkMessage "Error updating class. Could not solve for new constraint limit" "LINE CABLE SAGGER".

Lemma sagger_limit_solved : exists s1, UpdateLineCableConstraintLimit [] h_sagger = Ok (true, s1) /\
  exists s2, UpdateCatenariesConstraintsActual [] s1 = Ok (false, s2).
Proof.
  assert (K : match UpdateLineCableConstraintLimit [] h_sagger with
              | Ok (true, s1) => match UpdateCatenariesConstraintsActual [] s1 with Ok (b, _) => Some b | _ => None end
              | _ => None end = Some false) by (vm_compute; reflexivity).
  destruct (UpdateLineCableConstraintLimit [] h_sagger) as [[[|] s1]| |]; try discriminate. exists s1. split; [reflexivity|].
  destruct (UpdateCatenariesConstraintsActual [] s1) as [[b s2]| |]; try discriminate. injection K as ->. eauto.
Qed.

(** The update of the sagger from the two steps, without a second computation. *)
Lemma flag_actual : forall (N : Num) (env : Env N) s b ok s2, UpdateCatenariesConstraintsActual env s = Ok (ok, s2) ->
  UpdateCatenariesConstraintsActual env (sa_with_flag s b) = Ok (ok, sa_with_flag s2 b).
Proof.
  intros N env s b ok s2 E. unfold UpdateCatenariesConstraintsActual in *. cbn [sa_with_flag sa_constraints sa_line].
  destruct (deref (sa_constraints s)) as [cs| |]; cbn [obind] in *; try discriminate E.
  destruct (actual_loop env (lr_set_line Reloader_new (sa_line s)) cs []) as [(k, ks)| |]; cbn [obind] in *; try discriminate E.
  injection E as -> <-. reflexivity.
Qed.

Lemma update_fails : forall (N : Num) (env : Env N) s s1 s2, sa_updated s = false -> UpdateLineCableConstraintLimit env s = Ok (true, s1) ->
  UpdateCatenariesConstraintsActual env s1 = Ok (false, s2) -> exists s3, sa_Update env s = Ok (false, s3) /\ sa_updated s3 = false.
Proof.
  intros N env s s1 s2 U E1 E2. unfold sa_Update. rewrite U, E1. cbn [obind].
  rewrite (flag_actual N env s1 true false s2 E2). cbn [obind]. eexists. split; reflexivity.
Qed.

Lemma h_sagger_fails : exists s3, sa_Update [] h_sagger = Ok (false, s3) /\ sa_updated s3 = false.
Proof. destruct sagger_limit_solved as (s1 & E1 & s2 & E2). exact (update_fails X20 [] h_sagger s1 s2 eq_refl E1 E2). Qed.

Lemma report_fails : forall (N : Num) (env : Env N) s m cs l c s3 i, sa_constraints s = Some cs -> sa_line s = Some l ->
  opart_only (LineCable_report env l) (each (fun k => part (Constraint_report k)) cs (true, m)) = Ok c -> fst c = true ->
  sa_Update env s = Ok (false, s3) -> controlling_index s = Ok i ->
  Sagger_report env s m = Ok (test "LINE CABLE SAGGER" true (sagger_failure i (sa_updated s3)) c, s3).
Proof.
  intros N env s m cs l c s3 i C L R T U I. unfold Sagger_report. rewrite C. cbn [deref obind]. rewrite L, R. cbn [obind].
  rewrite T. cbn [negb]. rewrite U. cbn [obind]. rewrite I. reflexivity.
Qed.

Lemma sagger_blames : exists s', Sagger_report [] h_sagger (Some []) = Ok ((false, Some [missing; new_limit]), s').
Proof.
  destruct h_sagger_fails as (s3 & U & F). exists s3.
  rewrite (report_fails X20 [] h_sagger (Some []) _ _ (true, Some [missing]) s3 0%Z eq_refl eq_refl ltac:(vm_compute; reflexivity) eq_refl U eq_refl), F.
  reflexivity.
Qed.

Lemma h_sagger_case : exists cs l, sa_constraints h_sagger = Some cs /\ forallb Constraint_Validate cs = true /\
  sa_line h_sagger = Some l /\ Strung_Validate [] l = Ok true /\ exists s1, sa_Update [] h_sagger = Ok (false, s1).
Proof.
  eexists _, _. split; [reflexivity|]. split; [vm_compute; reflexivity|]. split; [reflexivity|]. split; [vm_compute; reflexivity|].
  destruct h_sagger_fails as (s3 & U & _). exists s3. exact U.
Qed.

Lemma model_repeats : forall text, exists m m' e, h_model 6 2 PTLoadStrain = Ok m /\
  ElongModel_report text true m (Some []) = Ok ((false, Some e), m') /\
  List.length e = 200%nat /\ (forall x, In x e -> x = steep_creep text \/ x = steep_load text).
Proof.
  intros text. destruct (model_steep text) as (m & m' & A & B). eexists m, m', _. split; [exact A|]. split; [exact B|].
  split. { rewrite !app_length, !repeat_length. reflexivity. }
  intros x H. repeat (apply in_app_or in H as [H|H]); apply repeat_spec in H; auto.
Qed.
