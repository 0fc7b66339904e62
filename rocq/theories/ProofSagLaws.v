(** Proofs about the ruling span of a line cable, the validation of the loaders and the
    sagger, and the component tensions of a reloader. *)
From Coq Require Import ZArith Bool List Reals Lra Lia.
From Verif Require Import Num NumFacts ModelBase ModelLine ModelCable ModelCatenary SpecCatenary ProofCatenary ModelSolver SpecSolver ProofSolver
  ProofReal ProofThermalCases ProofSolverTarget ProofSolverCases
  ModelLoad ModelThermal ModelElongation SpecElong ProofElong ModelReload SpecReload ProofReload
  ModelSagtension SpecSagtension ProofSagtension ProofSagHistory ProofSagger.
Import ListNotations.

(** ** The ruling span *)
Section Span.
Open Scope R_scope.

Lemma span_target : forall (s : Stringing RNum) load k t p, CatenaryRulingSpan s = Ok k -> c3_Validate k = true ->
  unit_load s (co_weather (sr_constraint s)) = Ok load ->
  let sv := cs_run (@CatenarySolver_default RNum)
    [ScSetSpacing (sr_spacing s); ScSetValue (co_limit (sr_constraint s)); ScSetWeight load; ScSetType t; ScSetPosition p] in
  constraint_tension s load = fst (cs_TensionHorizontal sv) ->
  match t with
  | TgConstant => c3_Constant k = co_limit (sr_constraint s)
  | TgLength => Rabs (c3_Length k - co_limit (sr_constraint s)) <= / Vector3d_Magnitude (c3_weight k) / 100
  | TgSag => p = -1 -> Rabs (c3_Sag k - co_limit (sr_constraint s)) <= 4 / 3 / Vector3d_Magnitude (c3_weight k) / 100
  | TgTension => at_end p ->
      Rabs (quantity TgTension p k - co_limit (sr_constraint s)) <= Vector3d_Magnitude (c3_spacing k) / v3x (c3_spacing k) / 100
  | TgNull => False
  end.
Proof.
  intros s load k t p E V L sv T. unfold CatenaryRulingSpan in E. rewrite L in E. cbn [obind] in E. injection E as E.
  set (h := constraint_tension s load) in *.
  assert (K : k = hung sv h) by (rewrite <- E; reflexivity).
  assert (Pos : 0 < h).
  { rewrite K in V. unfold hung in V. unfold c3_Validate in V. destruct (c3_inputs_valid _); [|discriminate V].
    unfold c2_Validate in V. change (c2_tension (c3_catenary_2d (c3_ensure (c3_fresh ADPositive (c3_spacing (cs_catenary sv)) h (c3_weight (cs_catenary sv)))))) with h in V.
    destruct (fleb (n := RNum) h (fofZ (N := RNum) 0)) eqn:Z; [discriminate V|]. revert Z. rn. intros Z. apply Rleb_false in Z. exact Z. }
  assert (N1 : (fst (cs_TensionHorizontal sv) : R) <> -999999) by (rewrite <- T; lra).
  assert (N2 : (fst (cs_TensionHorizontal (cs_renew sv)) : R) <> -999999).
  { destruct (stale_answers sv) as (A & _); [apply settled_run, settled_default|reflexivity|]. rewrite <- A. exact N1. }
  destruct (run_answer _ N1 N2) as (_ & _ & M). fold sv in M. rewrite <- T in M. rewrite K. destruct t; try exact M; exact (proj2 M).
Qed.

(** The catenary of a valid line cable meets its constraint. *)
Lemma ruling_span : forall (s : Stringing RNum) k, CatenaryRulingSpan s = Ok k -> c3_Validate k = true ->
  let x : R := co_limit (sr_constraint s) in
  match co_type (sr_constraint s) with
  | LmHorizontal => (c3_tension_horizontal k : R) = x
  | LmConstant => (c3_Constant k : R) = x
  | LmLength => Rabs (c3_Length k - x) <= / Vector3d_Magnitude (c3_weight k) / 100
  | LmSag => Rabs (c3_Sag k - x) <= 4 / 3 / Vector3d_Magnitude (c3_weight k) / 100
  | LmSupport =>
      Rabs (c3_Tension k (if Rle_dec (v3z (sr_spacing s)) 0 then 0 else 1) - x) <=
      Vector3d_Magnitude (c3_spacing k) / v3x (c3_spacing k) / 100
  | LmNull => False
  end.
Proof.
  intros s k E V x. assert (E' := E). unfold CatenaryRulingSpan in E'.
  destruct (unit_load s (co_weather (sr_constraint s))) as [load| |] eqn:L; cbn [obind] in E'; try discriminate E'.
  pose proof (fun t p => span_target s load k t p E V L) as H. cbv zeta in H.
  destruct (co_type (sr_constraint s)) eqn:Ty; unfold constraint_tension in H; rewrite Ty in H.
  - specialize (H TgNull (-1)). cbn beta iota in H. apply H. reflexivity.
  - injection E' as <-. unfold constraint_tension. rewrite Ty. reflexivity.
  - apply (H TgConstant (fofZ (N := RNum) (-1))). reflexivity.
  - apply (H TgLength (fofZ (N := RNum) (-1))). reflexivity.
  - apply (H TgSag (fofZ (N := RNum) (-1))); [reflexivity|]. rn. reflexivity.
  - specialize (H TgTension (if fleb (n := RNum) (v3z (sr_spacing s)) (fofZ (N := RNum) 0) then fofZ (N := RNum) 0 else fofZ (N := RNum) 1) eq_refl).
    cbn beta iota in H. revert H. rn. unfold Rleb, quantity. destruct (Rle_dec (v3z (sr_spacing s)) 0) as [C|C].
    + destruct (Req_EM_T 0 (-1)) as [X|_]; [lra|]. intros H. apply H. right. left. reflexivity.
    + destruct (Req_EM_T 1 (-1)) as [X|_]; [lra|]. intros H. apply H. right. right. reflexivity.
Qed.

End Span.

(** ** Validation *)
Section Validation.
Context {N : Num}.
Open Scope num_scope.

(** The connections have no say. *)
Lemma validate_connections : forall env (p : Stringing N) cs cs' b b',
  ValidateConnections env cs = Ok b -> ValidateConnections env cs' = Ok b' ->
  Strung_Validate env (mkLC cs p) = Strung_Validate env (mkLC cs' p).
Proof.
  intros env p cs cs' b b' E E'. unfold Strung_Validate. cbn [lc_payload lc_connections]. rewrite E, E'. reflexivity.
Qed.

Lemma base_fresh : forall (l : option (Strung N)) c w, lr_like (lr_fresh l c w) = lr_fresh l c w.
Proof. reflexivity. Qed.

Lemma null_weather : forall env l c (w : WeatherLoadCase N) r, lr_Validate env (lr_fresh l c (Some w)) = Ok (true, r) ->
  lr_Validate env (lr_fresh l c None) = UB.
Proof.
  intros env l c w r E. unfold lr_Validate, lr_base_Validate in *.
  change (lr_base (lr_fresh l c (Some w))) with (lr_base (lr_fresh l c None)) in E.
  destruct (lb_inputs_valid env (lr_base (lr_fresh l c None))) as [v| |]; cbn [obind] in *; try discriminate E.
  destruct v; [|discriminate E].
  unfold lr_Update in *. change (lb_IsUpdated (lr_base (lr_fresh l c (Some w)))) with false in E. cbn [obind] in E.
  change (lb_IsUpdated (lr_base (lr_fresh l c None))) with false. cbn beta iota zeta in *.
  change (lr_base (lr_with_flags (lr_fresh l c (Some w)) false false)) with (lr_base (lr_fresh l c None)) in E.
  change (lr_base (lr_with_flags (lr_fresh l c None) false false)) with (lr_base (lr_fresh l c None)).
  destruct (lb_Update (lr_base (lr_fresh l c None))) as [(ok, b)| |]; cbn [obind] in *; try discriminate E.
  destruct ok; [reflexivity|]. cbn [obind] in E. discriminate E.
Qed.

Lemma null_constraints : forall env (l : option (Strung N)), sa_Validate env (sa_fresh l None) = UB.
Proof. reflexivity. Qed.

Lemma no_constraints : forall env (line : Strung N), Strung_Validate env line = Ok true ->
  sa_Validate env (sa_fresh (Some line) (Some [])) = Throw.
Proof.
  intros env line V. unfold sa_Validate. cbn [sa_fresh sa_set_line sa_set_constraints sa_constraints sa_line deref obind forallb].
  rewrite V. reflexivity.
Qed.

(** High tensions are not found. *)
Lemma high_loop : forall (line : Strung N) cs r i index,
  (forall c, In c cs -> exists x, tension_under line c = Ok x /\ (x =? ferr) = false /\ (x <? #999999) = false) ->
  lr_condition r = co_condition (sr_constraint (lc_payload line)) -> lr_weather r = co_weather (sr_constraint (lc_payload line)) ->
  control_loop line r i #999999 index cs = Ok (Some index).
Proof.
  intros line. induction cs as [|c cs IH]; intros r i index H A B; [reflexivity|]. cbn [control_loop].
  pose proof (tension_step line r c A B) as T. destruct (H c (or_introl eq_refl)) as (x & X & Xe & Xl).
  destruct (lr_TensionHorizontal _) as [(h, r')| |]; cbn [obind]; try (rewrite T in X; discriminate X).
  destruct T as (T & A' & B'). rewrite T in X. injection X as ->. rewrite Xe, Xl. apply IH; [|exact A'|exact B'].
  intros c' Hc. apply H. right. exact Hc.
Qed.
Lemma high_tensions : forall env (line : Strung N) cs, length cs <> 1%nat ->
  (forall c, In c cs -> exists x, tension_under line c = Ok x /\ (x =? ferr) = false /\ (x <? #999999) = false) ->
  sa_Update env (sa_fresh (Some line) (Some cs)) = Throw.
Proof.
  intros env line cs L H. unfold sa_Update, UpdateLineCableConstraintLimit, UpdateControllingConstraintIndex.
  cbn [sa_fresh sa_set_line sa_set_constraints sa_constraints sa_line sa_updated deref obind].
  rewrite (proj2 (Nat.eqb_neq _ _) L). rewrite high_loop; [reflexivity|exact H|reflexivity|reflexivity].
Qed.

(** The answer of Validate changes with a query. *)
Lemma validate_changes : forall env (line : Strung N) cs i s1,
  (co_limit (sr_constraint (lc_payload line)) <? #0) = true ->
  sa_IndexConstraintControlling env (sa_fresh (Some line) (Some cs)) = Ok (i, s1) -> i <> (-9999)%Z ->
  forallb Constraint_Validate cs = true -> (forall l, sa_line s1 = Some l -> Strung_Validate env l = Ok true) ->
  omap fst (sa_Validate env (sa_fresh (Some line) (Some cs))) = Ok false /\ omap fst (sa_Validate env s1) = Ok true.
Proof.
  intros env line cs i s1 Lt E I V W. destruct (index_updates env _ i s1 E I) as (U & _).
  destruct (sagged env _ _ s1 U) as (line' & cs' & c & k & L & C & _ & _ & L1 & C1 & _). injection L as <-. injection C as <-.
  split.
  - unfold sa_Validate. cbn [sa_fresh sa_set_line sa_set_constraints sa_constraints sa_line deref obind]. rewrite V.
    unfold Strung_Validate, Stringing_inputs_valid, Constraint_Validate. rewrite Lt. cbn [negb].
    rewrite !andb_false_r, ?andb_false_l, ?andb_false_r. reflexivity.
  - unfold sa_Validate. rewrite C1, L1. cbn [deref obind]. rewrite V, (W _ L1). cbn [obind andb].
    assert (Up : sa_updated s1 = true).
    { unfold sa_Update in U. cbn [sa_fresh sa_set_line sa_set_constraints sa_updated] in U.
      destruct (UpdateLineCableConstraintLimit env _) as [([|], s2)| |]; cbn [obind] in U; try discriminate U.
      destruct (UpdateCatenariesConstraintsActual env _) as [(b, s3)| |]; cbn [obind] in U; try discriminate U.
      injection U as -> <-. reflexivity. }
    unfold sa_Update. rewrite Up. reflexivity.
Qed.

End Validation.
