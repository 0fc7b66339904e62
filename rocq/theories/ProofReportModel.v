(** The laws of messages for the elongation models, the strainer, the catenary cables and the
    sag-tension classes of a line cable. *)
From Coq Require Import ZArith Bool List String Lia.
From Verif Require Import Num ModelBase ModelAlignment ModelLine ModelCable ModelCatenary ModelLoad ModelSolver ModelPolynomial
  ModelSolar ModelThermal ModelElongation ModelReload ModelSagtension ModelLocator ModelSagging
  ModelValidate SpecValidate ModelReport SpecReport ProofValidate ProofValidateLine ProofReport ProofReportLine ProofReportAll.
Import ListNotations.
Open Scope num_scope.
Open Scope list_scope.

Section Law.
Context {N : Num}.
Variable text : N -> string.
Variable P : bool -> list Message -> Prop.
Hypothesis law : Law P.
Hypothesis drops : Drops P.

Local Notation fine := (fine P).
Local Notation fstep := (fstep P).
Local Notation ofine := (ofine P).
Local Notation sfine := (sfine P).

Ltac onetest := apply (fine_test P law); [|words|words].
Ltac start := apply (fine_start P law).

Lemma said_any : Blanks P -> forall t d, t <> ""%string -> P false [mkMessage d t].
Proof. intros blanks t [|x d] T; [apply blanks|apply (law_said P law); auto; discriminate]. Qed.

(** An outcome in the middle of a result. *)
Lemma sfine_choice : forall S (b : bool) (v w : Messages -> outcome (Check * S)) r1 r2,
  sfine v r1 -> sfine w r2 -> sfine (fun m => if b then v m else w m) (if b then r1 else r2).
Proof. intros S [|] v w r1 r2 A B; auto. Qed.

Lemma CompModel_inputs : forall k : CompModel N, fine (fun m =>
  test "CABLE COMPONENT ELONGATION MODEL" (match cm_tref k with None => true | Some x => x <? #(-100) end) "Invalid reference temperature"
   (pointed "CABLE COMPONENT ELONGATION MODEL" "Invalid stretch state" (cm_stretch k) StretchState_report
    (pointed "CABLE COMPONENT ELONGATION MODEL" "Invalid state" (cm_state k) CableState_report
     (pointed "CABLE COMPONENT ELONGATION MODEL" "Invalid cable component" (cm_component k) StComponent_report (true, m)))))
  (cm_inputs_valid k).
Proof.
  intros k. eapply fine_eq.
  - onetest. apply (fine_pointed P law); [|apply (StretchState_fine P law drops)|words|words].
    apply (fine_pointed P law); [|apply (CableState_fine P law)|words|words].
    apply (fine_pointed P law); [start|apply (StComponent_fine P law)|words|words].
  - unfold cm_inputs_valid. destruct (cm_tref k); reflexivity.
Qed.

Lemma CompModel_fine : forall warn (k : CompModel N), sfine (CompModel_report text warn k) (cm_Validate warn k).
Proof.
  intros warn k. unfold CompModel_report, cm_Validate. cbn zeta.
  assert (I1 := CompModel_inputs k).
  apply sfine_leave; [exact I1|]. intros V. rewrite V in I1.
  apply (sfine_value P _ _ (cm_Update k)). intros [[|] k'] _; cbn [negb].
  - apply (sfine_value P _ _ (cm_base k')). intros b _. eapply sfine_eq.
    + apply osfine_bind with (rr := fun o => do p <- (if warn then do x <- shape_valid b (cc_creep b) (cc_limit_creep b);
             do y <- shape_valid b (cc_loadstrain b) (cc_limit_loadstrain b); Ok (x && y) else Ok true); Ok (o && p, k')).
      * apply (ofine_part P law); [|apply (PolynomialOrigin_fine P law)]. do 2 onetest. exact I1.
      * intros o c _ H.
        eapply sfine_eq; [apply osfine_bind with (rr := fun o => Ok (o, k'));
          [apply (ofine_part P law); [exact H|apply (PolynomialShape_fine text P law)]
          |intros o2 c2 _ H2; apply sfine_ok; exact H2]|].
        destruct warn; [|reflexivity].
        destruct (shape_valid b (cc_creep b) (cc_limit_creep b)); try reflexivity. cbn [obind].
        destruct (shape_valid b (cc_loadstrain b) (cc_limit_loadstrain b)); reflexivity.
    + unfold polynomials_valid. rewrite !negb_involutive. destruct warn.
      * destruct (origin_valid b (cc_creep b)); try reflexivity. cbn [obind omap].
        destruct (origin_valid b (cc_loadstrain b)); try reflexivity. cbn [obind omap].
        destruct (shape_valid b (cc_creep b) (cc_limit_creep b)); try reflexivity. cbn [obind].
        destruct (shape_valid b (cc_loadstrain b) (cc_limit_loadstrain b)); try reflexivity. cbn [obind].
        rewrite !andb_assoc. reflexivity.
      * cbn [obind omap]. rewrite !andb_true_r. reflexivity.
  - apply sfine_ok. eapply fine_eq; [onetest; exact I1|reflexivity].
Qed.

Lemma StrainLimit_fine : forall warn (k : ElongModel N), sfine (StrainLimit_report warn k) (ValidateComponentsStrainLimit warn k).
Proof.
  intros [|] k; unfold StrainLimit_report, ValidateComponentsStrainLimit; cbn [negb]; cbn zeta; [|apply sfine_ok; start].
  apply (sfine_value P _ _ (deref (em_cable k))). intros c _.
  apply (sfine_value P _ _ (deref (sg_base c))). intros b _.
  apply (sfine_value P _ _ (UpdateComponentsState k _)). intros k1 _.
  apply (sfine_value P _ _ (StrainCombined k1 _)). intros [x k2] _.
  apply (sfine_value P _ _ (em_core_on k2)). intros a _.
  apply (sfine_value P _ _ (limit_valid _ _ _ _ _ k2)). intros [v1 k3] _.
  apply (sfine_value P _ _ (em_shell_on k3)). intros s _.
  apply (sfine_value P _ _ (limit_valid _ _ _ _ _ k3)). intros [v2 k4] _.
  apply (sfine_value P _ _ (UpdateComponentsState k4 _)). intros k5 _.
  apply sfine_ok. eapply fine_eq; [do 2 onetest; start|]. rewrite !negb_involutive. reflexivity.
Qed.

Lemma StrainUnloaded_fine : forall warn (k : ElongModel N),
  sfine (StrainUnloaded_report text warn k) (ValidateComponentsStrainUnloaded warn k).
Proof.
  intros [|] k; unfold StrainUnloaded_report, ValidateComponentsStrainUnloaded; cbn [negb]; cbn zeta; [|apply sfine_ok; start].
  apply (sfine_value P _ _ (em_core_on k)). intros [|] _; cbn [negb]; [|apply sfine_ok; start].
  apply (sfine_value P _ _ (deref (em_cable k))). intros c _.
  apply (sfine_value P _ _ (deref (sg_base c))). intros b _.
  match goal with |- context [StrainCore ?k ?z] => apply (sfine_value P _ _ (StrainCore k z)) end. intros [x1 k1] _.
  apply (sfine_value P _ _ (StrainShell k1 #0)). intros [x2 k2] _.
  apply sfine_ok. refine (fine_test P law _ true _ _ _ (fine_start P law) _ _); [words|]. apply joined. words.
Qed.

Lemma ComponentModel_fine : forall warn on (k : CompModel N) v o, fine v o ->
  sfine (fun m => ComponentModel_report text warn on k (v m)) (omap (fun x => (o && fst x, snd x)) (component_model_valid warn on k)).
Proof.
  intros warn [|] k v o H; unfold ComponentModel_report, component_model_valid.
  - apply (sfine_part P law); [exact H|apply CompModel_fine].
  - cbn [omap obind fst snd]. rewrite andb_true_r. apply sfine_ok. exact H.
Qed.

Lemma ElongModel_fine : forall warn (k : ElongModel N), sfine (ElongModel_report text warn k) (em_Validate warn k).
Proof.
  intros warn k. unfold ElongModel_report, em_Validate. cbn zeta.
  apply osfine_bind.
  { destruct (em_cable k) as [c|].
    - eapply ofine_eq; [apply (ofine_part P law _ (fun m => (true, m)) true); [start|apply (StCable_fine P law)]|].
      destruct (sg_Validate c); reflexivity.
    - apply (ofine_ok P _ false). eapply fine_eq; [onetest; start|reflexivity]. }
  intros b c _ H.
  assert (H2 : fine (fun m => part (StretchState_report (em_stretch k)) (part (CableState_report (em_state k)) (c m)))
    (b && CableState_Validate (em_state k) && StretchState_Validate (em_stretch k))).
  { apply (fine_part P law); [|apply (StretchState_fine P law drops)]. apply (fine_part P law); [exact H|apply (CableState_fine P law)]. }
  apply sfine_leave; [exact H2|]. intros V. rewrite V in H2.
  apply (sfine_value P _ _ (em_Update k)). intros k1 _.
  apply (sfine_value P _ _ (deref (em_cable k1))). intros cable _.
  apply (sfine_value P _ _ (sg_on cable)). intros [|] _; cbn [negb].
  - apply (sfine_value P _ _ (em_core_on k1)). intros a _. eapply sfine_eq.
    + apply sfine_bind with (rr := fun o core =>
        do s <- em_shell_on (em_with_core k1 core);
        do (v2, shell) <- component_model_valid warn s (em_shell (em_with_core k1 core));
        do (v3, m) <- ValidateComponentsStrainLimit warn (em_with_shell (em_with_core k1 core) shell);
        do (v4, m) <- ValidateComponentsStrainUnloaded warn m;
        Ok (o && v2 && v3 && v4, m)).
      * apply ComponentModel_fine. exact H2.
      * intros o core c1 _ H3. apply (sfine_value P _ _ (em_shell_on (em_with_core k1 core))). intros s _. eapply sfine_eq.
        -- apply sfine_bind with (rr := fun o shell =>
             do (v3, m) <- ValidateComponentsStrainLimit warn (em_with_shell (em_with_core k1 core) shell);
             do (v4, m) <- ValidateComponentsStrainUnloaded warn m;
             Ok (o && v3 && v4, m)).
           ++ apply ComponentModel_fine. exact H3.
           ++ intros o2 shell c2 _ H4. eapply sfine_eq.
              ** apply sfine_bind with (rr := fun o m =>
                   omap (fun x => (o && fst x, snd x)) (ValidateComponentsStrainUnloaded warn m)).
                 --- apply (sfine_part P law); [exact H4|apply StrainLimit_fine].
                 --- intros o3 k2 c3 _ H5. apply (sfine_part P law); [exact H5|apply StrainUnloaded_fine].
              ** destruct (ValidateComponentsStrainLimit warn _) as [[v3 k2]| |]; try reflexivity. cbn [obind omap fst snd].
                 destruct (ValidateComponentsStrainUnloaded warn k2) as [[v4 k3]| |]; reflexivity.
        -- destruct (component_model_valid warn s _) as [[v2 shell]| |]; reflexivity.
    + destruct (component_model_valid warn a (em_core k1)) as [[v1 core]| |]; try reflexivity.
  - apply sfine_ok. eapply fine_eq; [onetest; exact H2|reflexivity].
Qed.

Lemma Strainer_fine : forall same warn (mem : Models N) (s : Strainer N),
  sfine (Strainer_report text same warn mem s) (cr_Validate same warn mem s).
Proof.
  intros same warn mem s. unfold Strainer_report, cr_Validate. cbn zeta.
  assert (H : fine (fun m => test "CABLE STRAINER" (cr_load_start s <? #0) "Invalid start load"
     (test "CABLE STRAINER" (cr_load_finish s <? #0) "Invalid finish load"
      (test "CABLE STRAINER" (cr_length s <=? #0) "Invalid length" (true, m)))) (cr_inputs_valid s)).
  { eapply fine_eq; [do 3 onetest; start|reflexivity]. }
  apply sfine_leave; [exact H|]. intros V. rewrite V in H.
  apply (sfine_value P _ _ (deref (cr_start s))). intros a _.
  apply (sfine_value P _ _ (deref (cr_finish s))). intros b _.
  assert (H2 : fine (fun m => test "CABLE STRAINER" (negb (same a b)) ("Cables used in the start and finish elongation " ++ "models do not match")
     (test "CABLE STRAINER" (cr_load_start s <? #0) "Invalid start load"
     (test "CABLE STRAINER" (cr_load_finish s <? #0) "Invalid finish load"
      (test "CABLE STRAINER" (cr_length s <=? #0) "Invalid length" (true, m))))) (same a b)).
  { eapply fine_eq; [onetest; exact H|]. apply negb_involutive. }
  clear H. destruct H2 as (e0 & A0 & B0). assert (KA := ElongModel_fine warn (mem a)).
  destruct (em_Validate warn (mem a)) as [[v1 ka]| |]; cbn [obind].
  2-3: intros m; rewrite !A0; cbn [snd]; rewrite KA; reflexivity.
  destruct KA as (e1 & A1 & B1). destruct v1; cbn [negb].
  - assert (KB := ElongModel_fine warn (put mem a ka b)).
    destruct (em_Validate warn (put mem a ka b)) as [[v2 kb]| |]; cbn [obind].
    2-3: intros m; rewrite !A0; cbn [snd]; rewrite A1; cbn [obind fst snd negb]; rewrite KB; reflexivity.
    destruct KB as (e2 & A2 & B2). exists (e0 ++ e1 ++ e2). split.
    + intros m. rewrite !A0. cbn [fst snd]. rewrite A1. cbn [obind fst snd negb]. rewrite A2. cbn [obind fst snd].
      rewrite !more_more, app_assoc. destruct v2, (same a b); reflexivity.
    + apply (law_app P law); [exact B0|]. exact (law_app P law true e1 v2 e2 B1 B2).
  - exists (e0 ++ e1). split.
    + intros m. rewrite !A0. cbn [fst snd]. rewrite A1. cbn [obind fst snd negb]. rewrite more_more. reflexivity.
    + rewrite <- (andb_false_r (same a b)). apply (law_app P law); auto.
Qed.

Lemma CatUnloader_fine : forall cats same warn (mem : Models N) (u : CatUnloader N),
  sfine (CatUnloader_report text cats same warn mem u) (un_Validate cats same warn mem u).
Proof.
  intros cats same warn mem u. unfold CatUnloader_report, un_Validate. cbn zeta. eapply sfine_eq.
  - apply (sfine_part P law); [|apply Strainer_fine].
    apply (fine_pointed P law); [start|intros a; apply (Catenary3d_fine P law)|words|words].
  - destruct (cr_Validate same warn mem (un_strainer u)) as [[v2 mem2]| |]; reflexivity.
Qed.

Lemma Model_fine : forall warn (mem : Models N) p d v o, fine v o -> d <> ""%string ->
  sfine (fun m => Model_report text warn mem p d (v m)) (omap (fun x => (o && fst x, snd x)) (model_valid warn mem p)).
Proof.
  intros warn mem [a|] d v o H D; unfold Model_report, model_valid.
  - eapply sfine_eq.
    + apply sfine_bind with (rr := fun o k => Ok (o, put mem a k)).
      * apply (sfine_part P law); [exact H|apply ElongModel_fine].
      * intros o2 k c _ H2. apply sfine_ok. exact H2.
    + destruct (em_Validate warn (mem a)) as [[x k]| |]; reflexivity.
  - cbn [omap obind fst snd]. apply sfine_ok. eapply fine_eq; [apply (fine_test P law); [exact H|words|exact D]|]. reflexivity.
Qed.

Lemma CatReloader_fine : forall cats weights warn (mem : Models N) (r : CatReloader N),
  sfine (CatReloader_report text cats weights warn mem r) (rl_Validate cats weights warn mem r).
Proof.
  intros cats weights warn mem r. unfold CatReloader_report, rl_Validate. cbn zeta. eapply sfine_eq.
  - apply sfine_bind with (rr := fun o mem =>
      do (v3, mem) <- model_valid warn mem (rl_reloaded r);
      if o && v3 && weight_valid weights (rl_weight r) then rl_Update cats weights mem r else Ok (false, (mem, r))).
    + apply Model_fine; [|words]. apply (fine_pointed P law); [start|intros a; apply (Catenary3d_fine P law)|words|words].
    + intros o mem1 c _ H. eapply sfine_eq.
      * apply sfine_bind with (rr := fun o mem =>
          if o && weight_valid weights (rl_weight r) then rl_Update cats weights mem r else Ok (false, (mem, r))).
        -- apply Model_fine; [exact H|words].
        -- intros o2 mem2 c2 _ H2.
           assert (H3 : fine (fun m => match rl_weight r with
               | None => test "CATENARY CABLE RELOADER" true "Invalid reloaded unit weight" (c2 m)
               | Some a =>
                   test "CATENARY CABLE RELOADER" (v3z (weights a) <=? #0) "Invalid vertical unit weight"
                    (test "CATENARY CABLE RELOADER" (v3y (weights a) <? #0) "Invalid transverse unit weight"
                     (test "CATENARY CABLE RELOADER" (negb (v3x (weights a) =? #0)) "Invalid longitudinal unit weight" (c2 m)))
               end) (o2 && weight_valid weights (rl_weight r))).
           { destruct (rl_weight r) as [a|]; unfold weight_valid; (eapply fine_eq; [repeat onetest; exact H2|]).
             - rewrite negb_involutive, !andb_assoc. reflexivity.
             - reflexivity. }
           eapply sfine_eq.
           ++ apply sfine_leave; [exact H3|]. intros V. apply (sfine_update P law); [exact H3|words|words].
           ++ destruct (o2 && weight_valid weights (rl_weight r)); [|reflexivity].
              destruct (rl_Update cats weights mem2 r) as [[ok st]| |]; reflexivity.
      * destruct (model_valid warn mem1 (rl_reloaded r)) as [[x mem2]| |]; reflexivity.
  - destruct (model_valid warn mem (rl_reference r)) as [[x mem1]| |]; reflexivity.
Qed.

(** ** line cables *)
Lemma Loader_inputs_fine : forall env (b : Loader N), ofine (Loader_inputs_report env b) (lb_inputs_valid env b).
Proof.
  intros env b. unfold Loader_inputs_report, lb_inputs_valid. cbn zeta.
  apply ofine_bind; [apply (StCable_fine P law)|]. intros v c _ (e & A & B).
  assert (H : fine (fun m => test "LINE CABLE LOADER BASE" (negb (fst (c m))) "Invalid sag-tension cable" (c m)) v).
  { destruct v.
    - exists e. split; auto. intros m. rewrite A. reflexivity.
    - exists (e ++ [mkMessage "Invalid sag-tension cable"%string "LINE CABLE LOADER BASE"%string]). split.
      + intros m. rewrite A. cbn [fst negb test snd]. unfold test. cbn [snd]. rewrite push_more, more_more. reflexivity.
      + apply (law_app P law false e false); [exact B|apply (law_said P law); words]. }
  destruct (lb_line b) as [l|].
  - eapply ofine_eq; [apply (ofine_part P law); [exact H|apply (LineCable_fine P law drops)]|].
    destruct (Strung_Validate env l); reflexivity.
  - cbn [obind]. apply ofine_ok. eapply fine_eq; [onetest; exact H|reflexivity].
Qed.

Lemma Loader_fine : Blanks P -> forall S env (base : S -> Loader N) update (s : S),
  sfine (Loader_report env base update s) (do v <- lb_inputs_valid env (base s); if v then update s else Ok (false, s)).
Proof.
  intros blanks S env base update s. unfold Loader_report.
  apply osfine_bind; [apply Loader_inputs_fine|]. intros v c _ H. eapply sfine_eq.
  - apply sfine_leave; [exact H|]. intros _. eapply (sfine_update_blank P law _ _ _ _ _ (fun s => loader_failure (base s))); [exact H|].
    intros s' _. apply said_any; auto. words.
  - destruct v; [|reflexivity]. destruct (update s) as [[ok s']| |]; reflexivity.
Qed.

Lemma Reloader_fine : Blanks P -> forall env (r : Reloader N), sfine (Reloader_report env r) (lr_Validate env r).
Proof.
  intros blanks env r. unfold Reloader_report, lr_Validate. cbn zeta. eapply sfine_eq.
  - apply sfine_bind with (rr := fun v r =>
      if v && known_condition (lr_condition r) && weather_valid (lr_weather r) then lr_Update r else Ok (false, r)).
    + apply (sfine_part P law _ _ (fun m => (true, m)) true); [start|apply (Loader_fine blanks)].
    + intros v r1 c _ H.
      assert (H2 : fine (fun m => pointed "LINE CABLE RELOADER" "Invalid reloaded weathercase" (lr_weather r1) WeatherLoadCase_report
         (test "LINE CABLE RELOADER" (negb (known_condition (lr_condition r1))) "Invalid reloaded condition" (c m)))
         (v && known_condition (lr_condition r1) && weather_valid (lr_weather r1))).
      { eapply fine_eq.
        - apply (fine_pointed P law); [onetest; exact H|apply (Weather_fine P law)|words|words].
        - rewrite negb_involutive. reflexivity. }
      eapply sfine_eq.
      * apply sfine_leave; [exact H2|]. intros _.
        eapply (sfine_update_blank P law _ _ _ _ _ (@reloader_failure N)); [exact H2|]. intros s' _. apply said_any; auto. words.
      * destruct (v && _ && _); [|reflexivity]. destruct (lr_Update r1) as [[ok s']| |]; reflexivity.
  - unfold lr_base_Validate. destruct (do v <- lb_inputs_valid env (lr_base r); if v then lr_Update r else Ok (false, r)) as [[v r1]| |];
      reflexivity.
Qed.

Lemma Unloader_fine : Blanks P -> forall env (u : Unloader N), sfine (Unloader_report env u) (lu_Validate env u).
Proof.
  intros blanks env u. unfold Unloader_report, lu_Validate. cbn zeta. eapply sfine_eq.
  - apply sfine_bind with (rr := fun v u =>
      if v && known_condition (lu_condition u) && attachments_valid (lu_spacing u) && negb (lu_temperature u <? #(-50))
      then lu_Update u else Ok (false, u)).
    + apply (sfine_part P law _ _ (fun m => (true, m)) true); [start|apply (Loader_fine blanks)].
    + intros v u1 c _ H.
      assert (H2 : fine (fun m =>
         test "LINE CABLE UNLOADER" (lu_temperature u1 <? #(-50)) "Invalid unloaded temperature"
         (test "LINE CABLE UNLOADER" (#2000 <? fabs (v3z (lu_spacing u1))) "Invalid vertical attachment spacing"
         (test "LINE CABLE UNLOADER" (negb (v3y (lu_spacing u1) =? #0)) "Invalid transverse attachment spacing"
         (test "LINE CABLE UNLOADER" (v3x (lu_spacing u1) <=? #0) "Invalid horizontal attachment spacing"
         (test "LINE CABLE UNLOADER" (negb (known_condition (lu_condition u1))) "Invalid unloaded condition" (c m))))))
         (v && known_condition (lu_condition u1) && attachments_valid (lu_spacing u1) && negb (lu_temperature u1 <? #(-50)))).
      { eapply fine_eq; [do 5 onetest; exact H|]. unfold attachments_valid. rewrite !negb_involutive, !andb_assoc. reflexivity. }
      eapply sfine_eq.
      * apply sfine_leave; [exact H2|]. intros _.
        eapply (sfine_update_blank P law _ _ _ _ _ (@unloader_failure N)); [exact H2|]. intros s' _. apply said_any; auto. words.
      * destruct (v && _ && _ && _); [|reflexivity]. destruct (lu_Update u1) as [[ok s']| |]; reflexivity.
  - unfold lu_base_Validate. destruct (do v <- lb_inputs_valid env (lu_base u); if v then lu_Update u else Ok (false, u)) as [[v r1]| |];
      reflexivity.
Qed.
End Law.
