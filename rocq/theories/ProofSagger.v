(** Proofs about the line cable sagger: the controlling constraint and the limit. *)
From Coq Require Import ZArith Bool List Lia.
From Verif Require Import Num NumFacts ModelBase ModelLine ModelCable ModelCatenary SpecCatenary ProofCatenary ModelSolver ProofSolver
  ModelLoad ModelThermal ModelElongation SpecElong ProofElong ProofElongHistory ModelReload SpecReload ProofReload
  ModelSagtension SpecSagtension ProofSagtension ProofSagHistory.
Import ListNotations.
Open Scope num_scope.

Section Sagger.
Context {N : Num}.

Lemma like_line : forall (r : Reloader N) l, lr_like (lr_set_line r l) = lr_fresh l (lr_condition r) (lr_weather r).
Proof. reflexivity. Qed.

Lemma tension_step : forall (line : Strung N) r c, let own := sr_constraint (lc_payload line) in
  lr_condition r = co_condition own -> lr_weather r = co_weather own ->
  match lr_TensionHorizontal (lr_set_line r (Some (with_constraint line c))) with
  | Ok (h, r') => tension_under line c = Ok h /\ lr_condition r' = co_condition own /\ lr_weather r' = co_weather own
  | Throw => tension_under line c = Throw
  | UB => tension_under line c = UB
  end.
Proof.
  intros line r c own A B. pose (r1 := lr_set_line r (Some (with_constraint line c))). fold r1.
  assert (I : lrinv r1) by apply lrinv_line.
  pose proof (simple_answers _ (fun r => c3_tension_horizontal (lr_catenary r)) ferr r1 I (fun a b H => proj2 (proj2 (proj2 H)))) as S.
  change (orel (lr_answers r1) (lr_TensionHorizontal r1) (lr_TensionHorizontal (lr_like r1))) in S.
  assert (T : tension_under line c = omap fst (lr_TensionHorizontal (lr_like r1))).
  { unfold tension_under, r1. rewrite like_line, A, B. reflexivity. }
  rewrite T. destruct (lr_TensionHorizontal r1) as [(h, r')| |], (lr_TensionHorizontal (lr_like r1)) as [(h', r'')| |]; cbn [orel] in S; try contradiction; try reflexivity.
  destruct S as (E & _ & K). cbn [fst snd] in *. subst h'. split; [reflexivity|]. unfold lr_keys in K. injection K as _ K1 K2.
  split; [rewrite K1; exact A|rewrite K2; exact B].
Qed.

(** ** Setting the limit *)
Lemma validated : forall env (f r : Reloader N), lrinv f -> lr_Validate env f = Ok (true, r) ->
  lrinv r /\ lr_like r = lr_like f /\ lr_IsUpdated r = true.
Proof.
  intros env f r I E. unfold lr_Validate in E.
  pose proof (base_Validate_alike env f I) as B. destruct (lr_base_Validate env f) as [(v, a)| |]; cbn [obind] in E; try discriminate E.
  destruct (lr_base_Validate env (lr_like f)) as [(v', b)| |]; cbn [orel] in B; try contradiction.
  destruct B as (_ & Ia & Ka & _). cbn [snd] in Ia, Ka.
  destruct (v && _ && _); [|discriminate E].
  pose proof (lr_Update_fresh a Ia) as U. rewrite E in U. destruct (lr_Update (lr_like a)) as [q| |]; cbn [orel] in U; try contradiction.
  destruct U as (_ & H1 & H2 & H3 & _). cbn [fst snd] in *. split; [exact H1|]. split; [|exact H3]. apply like_keys. congruence.
Qed.

Lemma updated_answers : forall r : Reloader N, lr_IsUpdated r = true ->
  lr_CatenaryReloaded r = Ok (lr_catenary r, r) /\ lr_TensionHorizontal r = Ok (c3_tension_horizontal (lr_catenary r), r).
Proof. intros r U. unfold lr_CatenaryReloaded, lr_TensionHorizontal, lr_ensure. rewrite U. split; reflexivity. Qed.

Lemma limit_facts : forall env (s : Sagger N) s1, UpdateLineCableConstraintLimit env s = Ok (true, s1) ->
  exists line cs i c k, sa_line s = Some line /\ sa_constraints s = Some cs /\ UpdateControllingConstraintIndex s = Ok (Some i) /\
    vector_at cs i = Ok c /\
    s1 = sa_with_line (sa_with_index s i) (with_constraint line (reloaded_limit (sr_constraint (lc_payload line)) k)) /\
    tension_under line c = Ok (c3_tension_horizontal k) /\
    (forall q, omap (fun k => c3_answer k q) (catenary_under line c) = Ok (c3_answer k q)).
Proof.
  intros env s s1 E. unfold UpdateLineCableConstraintLimit in E.
  destruct (UpdateControllingConstraintIndex s) as [[i|]| |] eqn:E0; cbn [obind] in E; try discriminate E.
  cbn [sa_with_index sa_line sa_constraints] in E.
  destruct (sa_line s) as [line|] eqn:L; cbn [deref obind] in E; [|discriminate E].
  destruct (sa_constraints s) as [cs|] eqn:C; cbn [deref obind] in E; [|discriminate E].
  destruct (vector_at cs i) as [c| |] eqn:V; cbn [obind] in E; try discriminate E.
  set (f := lr_set_line _ _) in E. destruct (lr_Validate env f) as [(v, r)| |] eqn:W; cbn [obind] in E; try discriminate E.
  destruct v; [|discriminate E].
  assert (If : lrinv f) by apply lrinv_line.
  destruct (validated env f r If W) as (I & K & U). destruct (updated_answers r U) as (A1 & A2). rewrite A1 in E. cbn [obind] in E. injection E as <-.
  exists line, cs, i, c, (lr_catenary r). split; [reflexivity|]. split; [reflexivity|]. split; [reflexivity|]. split; [exact V|].
  split; [reflexivity|].
  pose proof (lrinv_alike env r I) as (_ & _ & _ & _ & H1 & _ & _ & H2). rewrite K in H1, H2.
  assert (F : lr_like f = lr_fresh (Some (with_constraint line c)) (co_condition (sr_constraint (lc_payload line))) (co_weather (sr_constraint (lc_payload line)))) by reflexivity.
  rewrite F in H1, H2. split.
  - unfold tension_under. rewrite <- H1, A2. reflexivity.
  - intros q. pose proof (H2 q) as Q. rewrite A1 in Q. unfold catenary_under.
    destruct (lr_CatenaryReloaded (lr_fresh _ _ _)) as [(k, b)| |]; cbn in Q |- *; try discriminate Q. symmetry. exact Q.
Qed.

(** The limit of the line cable after a search; nothing else has changed. *)
Definition descends (l l' : option (Strung N)) : Prop :=
  l' = l \/ exists line x, l = Some line /\ limited (N := N) (co_type (sr_constraint (lc_payload line))) <> None /\
              l' = Some (with_limit line x).

Lemma descends_trans : forall l l1 l2, descends l l1 -> descends l1 l2 -> descends l l2.
Proof.
  intros l l1 l2 [->|(line & x & -> & T & ->)] H; [exact H|]. destruct H as [->|(line' & x' & E & T' & ->)].
  - right. exists line, x. auto.
  - injection E as <-. right. exists line, x'. auto.
Qed.

Lemma reloaded_descends : forall line k,
  descends (Some line) (Some (with_constraint line (reloaded_limit (sr_constraint (lc_payload line)) k))).
Proof.
  intros [cn [ca [w cd li ty] sp cr lo]] k. destruct ty; try (left; reflexivity); right;
    (eexists; eexists; split; [reflexivity|split; [cbn; discriminate|reflexivity]]).
Qed.

Lemma limit_changed : forall env (s : Sagger N) b s1, UpdateLineCableConstraintLimit env s = Ok (b, s1) ->
  sa_constraints s1 = sa_constraints s /\ sa_updated s1 = sa_updated s /\ descends (sa_line s) (sa_line s1).
Proof.
  intros env s b s1 E. unfold UpdateLineCableConstraintLimit in E.
  destruct (UpdateControllingConstraintIndex s) as [[i|]| |]; cbn [obind] in E; try discriminate E; [|injection E as <- <-; repeat split; left; reflexivity].
  cbn [sa_with_index sa_line sa_constraints] in E.
  destruct (sa_line s) as [line|] eqn:L; cbn [deref obind] in E; [|discriminate E].
  destruct (deref (sa_constraints s)) as [cs| |]; cbn [obind] in E; try discriminate E.
  destruct (vector_at cs i) as [c| |]; cbn [obind] in E; try discriminate E.
  destruct (lr_Validate env _) as [(v, r)| |]; cbn [obind] in E; try discriminate E.
  destruct v; [destruct (lr_CatenaryReloaded r) as [(k, r')| |]; cbn [obind] in E; try discriminate E|]; injection E as <- <-.
  - repeat split. apply reloaded_descends.
  - repeat split. cbn. rewrite L. left. reflexivity.
Qed.

(** ** The limit before does not matter *)
Lemma control_loop_limit : forall (line : Strung N) x cs r i t index,
  control_loop (with_limit line x) r i t index cs = control_loop line r i t index cs.
Proof.
  intros line x. induction cs as [|c cs IH]; intros r i t index; [reflexivity|]. cbn [control_loop].
  change (with_constraint (with_limit line x) c) with (with_constraint line c).
  destruct (lr_TensionHorizontal _) as [(h, r')| |]; cbn [obind]; try reflexivity.
  destruct (h =? ferr); [reflexivity|]. destruct (h <? t); apply IH.
Qed.

Definition sa_with_limit (s : Sagger N) (x : N) : Sagger N :=
  match sa_line s with None => s | Some line => sa_with_line s (with_limit line x) end.

Lemma index_limit : forall (s : Sagger N) x, UpdateControllingConstraintIndex (sa_with_limit s x) = UpdateControllingConstraintIndex s.
Proof.
  intros s x. unfold UpdateControllingConstraintIndex, sa_with_limit. destruct (sa_line s) as [line|] eqn:L; [|rewrite L; reflexivity].
  cbn [sa_with_line sa_constraints sa_line]. destruct (deref (sa_constraints s)) as [cs| |]; cbn [obind]; try reflexivity.
  destruct (Nat.eqb (length cs) 1); [reflexivity|]. cbn [deref obind]. apply control_loop_limit.
Qed.

Lemma limit_independent : forall env (s : Sagger N) x line, sa_line s = Some line ->
  limited (N := N) (co_type (sr_constraint (lc_payload line))) <> None ->
  orel (fun p q => fst p = fst q /\ (fst p = true -> snd p = snd q))
    (UpdateLineCableConstraintLimit env (sa_with_limit s x)) (UpdateLineCableConstraintLimit env s).
Proof.
  intros env s x line L T. unfold UpdateLineCableConstraintLimit. rewrite index_limit.
  apply (orel_bind _ _ _ _ eq); [apply orel_eq|]. intros [i|] o <-; [|cbn; split; [reflexivity|discriminate]].
  unfold sa_with_limit. rewrite L. cbn [sa_with_line sa_with_index sa_line sa_constraints deref obind]. rewrite L. cbn [deref obind].
  apply (orel_bind _ _ _ _ eq); [apply orel_eq|]. intros cs o <-.
  apply (orel_bind _ _ _ _ eq); [apply orel_eq|]. intros c o <-.
  change (with_constraint (with_limit line x) c) with (with_constraint line c).
  change (reloader_to (sr_constraint (lc_payload (with_limit line x)))) with (reloader_to (sr_constraint (lc_payload line))).
  apply (orel_bind _ _ _ _ eq); [apply orel_eq|]. intros (v, r) o <-. destruct v; [|cbn; split; [reflexivity|discriminate]].
  apply (orel_bind _ _ _ _ eq); [apply orel_eq|]. intros (k, r') o <-. cbn [orel fst snd]. split; [reflexivity|]. intros _.
  unfold reloaded_limit. cbn [with_limit with_constraint lc_payload lc_connections sr_set_constraint sr_constraint co_weather co_condition co_type co_limit].
  unfold sa_with_line. cbn. do 2 f_equal. destruct (co_type (sr_constraint (lc_payload line))); try reflexivity; contradiction T; reflexivity.
Qed.

Lemma line_same : forall s : Sagger N, forall l, sa_line s = Some l -> sa_with_line s l = s.
Proof. intros [cs l0 ks i u] l E. cbn in E. subst. reflexivity. Qed.

Lemma limit_descends : forall env (s : Sagger N) l', descends (sa_line s) l' ->
  orel (fun p q => fst p = fst q /\ (fst p = true -> snd p = snd q))
    (UpdateLineCableConstraintLimit env (mkSagger (sa_constraints s) l' (sa_catenaries s) (sa_index s) (sa_updated s)))
    (UpdateLineCableConstraintLimit env s).
Proof.
  intros env s l' [->|(line & x & L & T & ->)].
  - destruct s as [cs0 l0 ks0 i0 u0]. cbn [sa_constraints sa_line sa_catenaries sa_index sa_updated]. destruct (UpdateLineCableConstraintLimit env _); cbn [orel]; auto.
  - pose proof (limit_independent env s x line L T) as H. unfold sa_with_limit in H. rewrite L in H. exact H.
Qed.

(** The members without the results do not matter. *)
Lemma limit_stale : forall env cs l (ks ks' : list (Catenary3d N)) i i' u u',
  orel (fun p q => fst p = fst q /\ (fst p = true -> sa_constraints (snd p) = cs /\ sa_constraints (snd q) = cs /\
                     sa_line (snd p) = sa_line (snd q) /\ sa_index (snd p) = sa_index (snd q)))
    (UpdateLineCableConstraintLimit env (mkSagger cs l ks i u)) (UpdateLineCableConstraintLimit env (mkSagger cs l ks' i' u')).
Proof.
  intros. unfold UpdateLineCableConstraintLimit.
  change (UpdateControllingConstraintIndex (mkSagger cs l ks' i' u')) with (UpdateControllingConstraintIndex (mkSagger cs l ks i u)).
  apply (orel_bind _ _ _ _ eq); [apply orel_eq|]. intros [j|] o <-; [|cbn; split; [reflexivity|discriminate]].
  cbn [sa_with_index sa_line sa_constraints].
  apply (orel_bind _ _ _ _ eq); [apply orel_eq|]. intros line o <-.
  apply (orel_bind _ _ _ _ eq); [apply orel_eq|]. intros cs' o <-.
  apply (orel_bind _ _ _ _ eq); [apply orel_eq|]. intros c o <-.
  apply (orel_bind _ _ _ _ eq); [apply orel_eq|]. intros (v, r) o <-. destruct v; [|cbn; split; [reflexivity|discriminate]].
  apply (orel_bind _ _ _ _ eq); [apply orel_eq|]. intros (k, r') o <-. cbn. auto.
Qed.

(** The line cable and the constraints [l] and [cs] were set last. *)
Definition family (env : Env N) (s : Sagger N) (l : option (Strung N)) (cs : option (list (Constraint N))) : Prop :=
  sa_constraints s = cs /\ descends l (sa_line s) /\ (sa_updated s = true -> sa_Update env (sa_fresh l cs) = Ok (true, s)).

Lemma Update_family : forall env (s : Sagger N) l cs, family env s l cs ->
  orel (fun p q => fst p = fst q /\ (fst p = true -> snd p = snd q) /\ family env (snd p) l cs)
    (sa_Update env s) (sa_Update env (sa_fresh l cs)).
Proof.
  intros env s l cs (C & D & U). destruct (sa_updated s) eqn:Us.
  - rewrite (U eq_refl). unfold sa_Update. rewrite Us. cbn [orel fst snd]. split; [reflexivity|]. split; [reflexivity|].
    split; [exact C|]. split; [exact D|]. intros _. exact (U eq_refl).
  - unfold sa_Update at 1. rewrite Us. unfold sa_Update at 1. cbn [sa_fresh sa_set_line sa_set_constraints sa_updated].
    assert (H : orel (fun p q => fst p = fst q /\ (fst p = true -> sa_constraints (snd p) = cs /\ sa_constraints (snd q) = cs /\
                     sa_line (snd p) = sa_line (snd q) /\ sa_index (snd p) = sa_index (snd q)))
                  (UpdateLineCableConstraintLimit env s) (UpdateLineCableConstraintLimit env (sa_fresh l cs))).
    { pose proof (limit_descends env (sa_fresh l cs) (sa_line s) D) as H1.
      destruct s as [cs0 l0 ks0 i0 u0]. cbn [sa_constraints sa_line sa_updated] in *. subst cs0.
      pose proof (limit_stale env cs l0 ks0 [] i0 (-9999)%Z u0 false) as H2. cbn [sa_fresh sa_set_line sa_set_constraints Sagger_new sa_constraints sa_line sa_catenaries sa_index sa_updated] in H1.
      set (o1 := UpdateLineCableConstraintLimit env (mkSagger cs l0 ks0 i0 u0)) in *.
      set (o2 := UpdateLineCableConstraintLimit env (mkSagger cs l0 [] (-9999)%Z false)) in *.
      change (sa_fresh l cs) with (mkSagger cs l [] (-9999)%Z false) in *.
      set (o3 := UpdateLineCableConstraintLimit env (mkSagger cs l [] (-9999)%Z false)) in *.
      destruct o1 as [(b1, s1)| |], o2 as [(b2, s2)| |], o3 as [(b3, s3)| |]; cbn [orel fst snd] in *; try contradiction; auto.
      destruct H1 as (-> & H1), H2 as (-> & H2). split; [reflexivity|]. intros ->. rewrite <- (H1 eq_refl). exact (H2 eq_refl). }
    pose proof (fun b s1 => limit_changed env s b s1) as Ch.
    change (mkSagger cs l (sa_catenaries (sa_set_constraints Sagger_new cs)) (sa_index (sa_set_constraints Sagger_new cs)) false) with (sa_fresh l cs).
    destruct (UpdateLineCableConstraintLimit env s) as [(b1, s1)| |]; destruct (UpdateLineCableConstraintLimit env (sa_fresh l cs)) as [(b2, s2)| |] eqn:E2;
      cbn [orel fst snd obind] in H |- *; try contradiction; auto.
    destruct H as (-> & H). destruct (Ch _ _ eq_refl) as (C1 & U1 & D1). rewrite C in C1.
    destruct b2.
    + destruct (H eq_refl) as (_ & C2 & L12 & I12). unfold UpdateCatenariesConstraintsActual.
      cbn [sa_with_flag sa_constraints sa_line]. rewrite C1, C2, L12.
      destruct (deref cs) as [cs'| |] eqn:Cs; cbn [obind orel]; auto.
      destruct (actual_loop env _ cs' []) as [(v, ks)| |] eqn:AL; cbn [obind orel]; auto.
      cbn [fst snd]. split; [reflexivity|].
      assert (Eq : sa_with_flag (sa_with_catenaries (sa_with_flag s1 true) ks) v = sa_with_flag (sa_with_catenaries (sa_with_flag s2 true) ks) v).
      { clear - C1 C2 L12 I12. destruct s1 as [a1 a2 a3 a4 a5], s2 as [b1 b2 b3 b4 b5]. cbn in *. subst. reflexivity. }
      split; [intros _; exact Eq|].
      split; [exact C1|]. split; [exact (descends_trans _ _ _ D D1)|]. cbn [sa_with_flag sa_updated]. intros ->.
      unfold sa_Update. cbn [sa_fresh sa_set_line sa_set_constraints sa_updated].
      change (mkSagger cs l (sa_catenaries (mkSagger cs (sa_line Sagger_new) (sa_catenaries Sagger_new) (sa_index Sagger_new) false))
        (sa_index (mkSagger cs (sa_line Sagger_new) (sa_catenaries Sagger_new) (sa_index Sagger_new) false)) false) with (sa_fresh l cs).
      rewrite E2. cbn [obind]. unfold UpdateCatenariesConstraintsActual. cbn [sa_with_flag sa_constraints sa_line].
      rewrite C2, Cs. cbn [obind]. rewrite AL. cbn [obind]. rewrite Eq. reflexivity.
    + split; [reflexivity|]. split; [discriminate|]. split; [exact C1|]. split; [exact (descends_trans _ _ _ D D1)|]. discriminate.
Qed.

(** A query uses the results of Update. *)
Lemma query_family : forall env (s : Sagger N) l cs (A : Type) (f : bool -> Sagger N -> outcome A),
  family env s l cs -> (forall s1 s2, f false s1 = f false s2) ->
  orel (fun p q => fst p = fst q /\ family env (snd p) l cs)
    (do (ok, s) <- sa_Update env s; do v <- f ok s; Ok (v, s)) (do (ok, s) <- sa_Update env (sa_fresh l cs); do v <- f ok s; Ok (v, s)).
Proof.
  intros env s l cs A f H Ff. eapply orel_bind; [exact (Update_family env s l cs H)|]. intros (b, s1) (b', s2) (E & S & G). cbn [fst snd] in *. subst b'.
  assert (Fe : f b s1 = f b s2) by (destruct b; [rewrite (S eq_refl); reflexivity|apply Ff]). rewrite Fe.
  destruct (f b s2) as [v| |]; cbn [obind orel fst snd]; auto.
Qed.

Definition sagger_query (env : Env N) {A : Type} (f : bool -> Sagger N -> outcome A) (s : Sagger N) : outcome (A * Sagger N) :=
  do (ok, s) <- sa_Update env s; do v <- f ok s; Ok (v, s).
Definition f_index (ok : bool) (s : Sagger N) : outcome Z := Ok (if ok then sa_index s else (-9999)%Z).
Definition f_limit (ok : bool) (s : Sagger N) : outcome N :=
  if ok then do l <- deref (sa_line s); Ok (co_limit (sr_constraint (lc_payload l))) else Ok ferr.
Definition f_actual (q : Catenary3d N -> N) (i : Z) (ok : bool) (s : Sagger N) : outcome N :=
  if ok then do k <- vector_at (sa_catenaries s) i; Ok (q k) else Ok ferr.
Definition f_capacity (i : Z) (ok : bool) (s : Sagger N) : outcome N :=
  if ok then
    do cs <- deref (sa_constraints s);
    do c <- vector_at cs i;
    do k <- vector_at (sa_catenaries s) i;
    Ok (match co_type c with
        | LmHorizontal => c3_tension_horizontal k / co_limit c
        | LmConstant => c3_Constant k / co_limit c
        | LmSupport => c3_TensionMax k / co_limit c
        | _ => ferr
        end)
  else Ok ferr.

Lemma index_query : forall env s, sa_IndexConstraintControlling env s = sagger_query env f_index s.
Proof. reflexivity. Qed.
Lemma limit_query : forall env s, sa_LimitConstraint env s = sagger_query env f_limit s.
Proof.
  intros. unfold sa_LimitConstraint, sagger_query, f_limit. destruct (sa_Update env s) as [([|], s2)| |]; cbn [obind]; try reflexivity.
  destruct (sa_line s2); reflexivity.
Qed.
Lemma actual_query : forall env q s i, sa_actual (N := N) env q s i = sagger_query env (f_actual q i) s.
Proof.
  intros. unfold sa_actual, sagger_query, f_actual. destruct (sa_Update env s) as [([|], s2)| |]; cbn [obind]; try reflexivity.
  destruct (vector_at _ _); reflexivity.
Qed.
Lemma capacity_query : forall env s i, sa_CapacityAllowable (N := N) env s i = sagger_query env (f_capacity i) s.
Proof.
  intros. unfold sa_CapacityAllowable, sagger_query, f_capacity. destruct (sa_Update env s) as [([|], s2)| |]; cbn [obind]; try reflexivity.
  destruct (deref _) as [cs| |]; cbn [obind]; try reflexivity. destruct (vector_at cs i) as [c| |]; cbn [obind]; try reflexivity.
  destruct (vector_at _ i); reflexivity.
Qed.

Lemma family_alike : forall env s l cs, family env s l cs -> sa_alike env s (sa_fresh l cs).
Proof.
  intros env s l cs H.
  assert (Q : forall (A : Type) (f : bool -> Sagger N -> outcome A), (forall s1 s2, f false s1 = f false s2) ->
    omap fst (sagger_query env f s) = omap fst (sagger_query env f (sa_fresh l cs))).
  { intros A f Ff. pose proof (query_family env s l cs A f H Ff) as K. unfold sagger_query.
    destruct (do (ok, s) <- sa_Update env s; _) as [(a, s1)| |], (do (ok, s) <- sa_Update env (sa_fresh l cs); _) as [(b, s2)| |];
      cbn [orel] in K; try contradiction; try reflexivity. destruct K as (E & _). cbn [fst] in E. subst. reflexivity. }
  unfold sa_alike, sa_CatenaryConstantActual, sa_TensionHorizontalActual, sa_TensionSupportActual.
  split; [rewrite !index_query; apply Q; reflexivity|].
  split; [rewrite !limit_query; apply Q; reflexivity|].
  split; [intros i; rewrite !actual_query; apply Q; reflexivity|].
  split; [intros i; rewrite !actual_query; apply Q; reflexivity|].
  split; [intros i; rewrite !actual_query; apply Q; reflexivity|].
  intros i; rewrite !capacity_query; apply Q; reflexivity.
Qed.

Lemma call_family : forall env s k s1 l cs, family env s l cs -> sa_call env s k = Ok s1 ->
  family env s1 (match pickSa_line k with Some l => l | None => l end) (match pickSa_constraints k with Some cs => cs | None => cs end).
Proof.
  intros env s k s1 l cs H E.
  assert (Q : forall (A : Type) (f : bool -> Sagger N -> outcome A), (forall s1 s2, f false s1 = f false s2) ->
    omap snd (sagger_query env f s) = Ok s1 -> family env s1 l cs).
  { intros A f Ff Es. pose proof (query_family env s l cs A f H Ff) as K. unfold sagger_query in Es.
    destruct (do (ok, s) <- sa_Update env s; _) as [(a, s2)| |]; try discriminate Es.
    destruct (do (ok, s) <- sa_Update env (sa_fresh l cs); _) as [(b, s3)| |];
      cbn [orel] in K; try contradiction. change (Ok s2 = Ok s1) in Es. injection Es as ->. exact (proj2 K). }
  destruct k; cbn [sa_call pickSa_line pickSa_constraints] in E |- *.
  - injection E as <-. destruct H as (_ & D & _). split; [reflexivity|]. split; [exact D|]. discriminate.
  - injection E as <-. destruct H as (C & _ & _). split; [exact C|]. split; [left; reflexivity|]. discriminate.
  - rewrite index_query in E. apply (Q _ f_index); [reflexivity|exact E].
  - rewrite limit_query in E. apply (Q _ f_limit); [reflexivity|exact E].
  - unfold sa_CatenaryConstantActual in E. rewrite actual_query in E. refine (Q _ _ _ E). reflexivity.
  - unfold sa_TensionHorizontalActual in E. rewrite actual_query in E. refine (Q _ _ _ E). reflexivity.
  - unfold sa_TensionSupportActual in E. rewrite actual_query in E. refine (Q _ _ _ E). reflexivity.
  - rewrite capacity_query in E. refine (Q _ _ _ E). reflexivity.
  - unfold sa_Validate in E. destruct (deref (sa_constraints s)) as [cs'| |]; cbn [obind omap] in E; try discriminate E.
    destruct (match sa_line s with None => _ | Some l => _ end) as [v| |]; cbn [obind omap] in E; try discriminate E.
    destruct (forallb _ cs' && v); [|change (Ok s = Ok s1) in E; injection E as <-; exact H].
    pose proof (Update_family env s l cs H) as K.
    destruct (sa_Update env s) as [(b, s2)| |]; try discriminate E. change (Ok s2 = Ok s1) in E. injection E as <-.
    destruct (sa_Update env (sa_fresh l cs)) as [q| |]; cbn [orel] in K; try contradiction. apply K.
Qed.

Lemma run_family : forall env (ks : list (SaCall N)) s s1 l cs, family env s l cs -> sa_run env s ks = Ok s1 ->
  family env s1 (last_of pickSa_line ks l) (last_of pickSa_constraints ks cs).
Proof.
  intros env. induction ks as [|k ks IH]; intros s s1 l cs H E; cbn [sa_run] in E; [injection E as <-; exact H|].
  destruct (sa_call env s k) as [s2| |] eqn:C; cbn [obind] in E; try discriminate E. cbn [last_of].
  exact (IH s2 s1 _ _ (call_family env s k s2 l cs H C) E).
Qed.

Lemma family_new : forall env, family env Sagger_new None None.
Proof. intros env. split; [reflexivity|]. split; [left; reflexivity|]. discriminate. Qed.

Lemma sagger_history : forall env (ks : list (SaCall N)) s, sa_run env Sagger_new ks = Ok s ->
  sa_alike env s (sa_fresh (last_of pickSa_line ks None) (last_of pickSa_constraints ks None)).
Proof. intros env ks s E. apply family_alike. exact (run_family env ks _ _ _ _ (family_new env) E). Qed.

(** ** The results of a new sagger *)
Lemma index_updates : forall env s i s1, sa_IndexConstraintControlling (N := N) env s = Ok (i, s1) -> i <> (-9999)%Z ->
  sa_Update env s = Ok (true, s1) /\ sa_index s1 = i.
Proof.
  intros env s i s1 E H. unfold sa_IndexConstraintControlling in E. destruct (sa_Update env s) as [([|], s2)| |]; cbn [obind] in E; try discriminate E;
    injection E as <- <-; [auto|]. contradiction H; reflexivity.
Qed.

Lemma actual_facts : forall env line cs r ks ks', lrinv r -> lb_line (lr_base r) = Some line ->
  actual_loop (N := N) env r cs ks = Ok (true, ks') ->
  exists ks1, ks' = ks ++ ks1 /\
    Forall2 (fun c k => forall q, omap (fun k => c3_answer k q) (catenary_at line c) = Ok (c3_answer k q)) cs ks1.
Proof.
  intros env line. induction cs as [|c cs IH]; intros r ks ks' I L E; cbn [actual_loop] in E.
  - injection E as <-. exists []. split; [symmetry; apply app_nil_r|constructor].
  - set (f := lr_set_condition _ _) in E.
    assert (If : lrinv f) by (apply lrinv_condition; apply lrinv_weather; exact I).
    destruct (lr_Validate env f) as [(v, r1)| |] eqn:W; cbn [obind] in E; try discriminate E. destruct v; [|discriminate E].
    destruct (validated env f r1 If W) as (I1 & K & U). destruct (updated_answers r1 U) as (A1 & _). rewrite A1 in E. cbn [obind] in E.
    assert (F : lr_like f = lr_fresh (Some line) (co_condition c) (co_weather c)).
    { unfold f, lr_like. cbn [lr_set_condition lr_set_weather lr_base lr_condition lr_weather]. rewrite L. reflexivity. }
    assert (L1 : lb_line (lr_base r1) = Some line).
    { rewrite F in K. apply (f_equal (fun r => lb_line (lr_base r))) in K. exact K. }
    destruct (IH r1 _ ks' I1 L1 E) as (ks1 & -> & F2). exists (lr_catenary r1 :: ks1). split; [rewrite <- app_assoc; reflexivity|].
    constructor; [|exact F2]. intros q. pose proof (lrinv_alike env r1 I1) as (_ & _ & _ & _ & _ & _ & _ & H2). specialize (H2 q).
    rewrite K, F, A1 in H2. unfold catenary_at.
    destruct (lr_CatenaryReloaded (lr_fresh _ _ _)) as [(k, b)| |]; cbn in H2 |- *; try discriminate H2. symmetry. exact H2.
Qed.

(** What a new sagger that succeeds has found. *)
Lemma sagged : forall env l cs (s1 : Sagger N), sa_Update env (sa_fresh l cs) = Ok (true, s1) ->
  exists line cs' c k, l = Some line /\ cs = Some cs' /\
    UpdateControllingConstraintIndex (sa_fresh l cs) = Ok (Some (sa_index s1)) /\ vector_at cs' (sa_index s1) = Ok c /\
    sa_line s1 = Some (with_constraint line (reloaded_limit (sr_constraint (lc_payload line)) k)) /\
    sa_constraints s1 = cs /\ tension_under line c = Ok (c3_tension_horizontal k) /\
    (forall q, omap (fun k => c3_answer k q) (catenary_under line c) = Ok (c3_answer k q)) /\
    Forall2 (fun c k' => forall q, omap (fun k' => c3_answer k' q)
        (catenary_at (with_constraint line (reloaded_limit (sr_constraint (lc_payload line)) k)) c) = Ok (c3_answer k' q))
      cs' (sa_catenaries s1).
Proof.
  intros env l cs s1 E. unfold sa_Update in E. cbn [sa_fresh sa_set_line sa_set_constraints sa_updated] in E.
  change (mkSagger cs l (sa_catenaries (mkSagger cs (sa_line Sagger_new) (sa_catenaries Sagger_new) (sa_index Sagger_new) false))
        (sa_index (mkSagger cs (sa_line Sagger_new) (sa_catenaries Sagger_new) (sa_index Sagger_new) false)) false) with (sa_fresh l cs) in E.
  destruct (UpdateLineCableConstraintLimit env (sa_fresh l cs)) as [([|], s2)| |] eqn:E1; cbn [obind] in E; try discriminate E.
  destruct (limit_facts env _ s2 E1) as (line & cs' & i & c & k & L & C & X & V & -> & T & Q).
  cbn [sa_fresh sa_set_line sa_set_constraints sa_line sa_constraints] in L, C. subst l cs.
  unfold UpdateCatenariesConstraintsActual in E. cbn [sa_with_line sa_with_index sa_fresh sa_set_line sa_set_constraints sa_with_flag sa_constraints sa_line deref obind] in E.
  destruct (actual_loop env _ cs' []) as [(v, ks)| |] eqn:AL; cbn [obind] in E; try discriminate E. injection E as -> <-.
  cbn [sa_with_flag sa_with_catenaries sa_index sa_line sa_constraints sa_catenaries].
  exists line, cs', c, k. split; [reflexivity|]. split; [reflexivity|]. split; [exact X|]. split; [exact V|]. split; [reflexivity|].
  split; [reflexivity|]. split; [exact T|]. split; [exact Q|].
  destruct (actual_facts env _ cs' _ [] ks (lrinv_line Reloader_new _) eq_refl AL) as (ks1 & -> & F2). exact F2.
Qed.

End Sagger.

(** ** The controlling constraint *)
Section Control.
Context {N : Num} (good : N -> Prop) (O : OrdLaws N good).

Lemma not_below : forall x y z : N, good x -> good y -> good z -> (y <? x) = false -> (z <? y) = false -> (z <? x) = false.
Proof.
  intros x y z Gx Gy Gz A B. destruct (z <? x) eqn:C; [|reflexivity].
  destruct (ol_cotrans N good O z y x Gz Gy Gx C) as [H|H]; congruence.
Qed.
Lemma below_then : forall x y z : N, good x -> good y -> good z -> (x <? y) = true -> (z <? y) = false -> (x <? z) = true.
Proof.
  intros x y z Gx Gy Gz A B. destruct (ol_cotrans N good O x z y Gx Gz Gy A) as [H|H]; congruence.
Qed.

Lemma control_spec : forall line cs r i (t : N) index j, let own := sr_constraint (lc_payload line) in
  (forall c x, In c cs -> tension_under line c = Ok x -> good x) -> good t ->
  lr_condition r = co_condition own -> lr_weather r = co_weather own ->
  control_loop line r i t index cs = Ok (Some j) ->
  exists ts : list N, Forall2 (fun c x => tension_under line c = Ok x) cs ts /\ Forall good ts /\
    ((j = index /\ Forall (fun x => (x <? t) = false) ts) \/
     exists k x, j = (i + Z.of_nat k)%Z /\ nth_error ts k = Some x /\ good x /\ (x <? t) = true /\
       forall k' x', nth_error ts k' = Some x' -> (x' <? x) = false /\ ((k' < k)%nat -> (x <? x') = true)).
Proof.
  intros line. induction cs as [|c cs IH]; intros r i t index j own G Gt A B E; cbn [control_loop] in E.
  - injection E as <-. exists []. split; [constructor|]. split; [constructor|]. left. split; [reflexivity|constructor].
  - pose proof (tension_step line r c A B) as T.
    destruct (lr_TensionHorizontal _) as [(h, r')| |]; cbn [obind] in E; try discriminate E.
    destruct T as (T & A' & B'). destruct (h =? ferr)%num; [discriminate E|].
    assert (Gh : good h) by (apply (G c); [left; reflexivity|exact T]).
    assert (G' : forall c x, In c cs -> tension_under line c = Ok x -> good x) by (intros c' x Hc; apply G; right; exact Hc).
    destruct (h <? t)%num eqn:C.
    + destruct (IH r' (i + 1)%Z h i j G' Gh A' B' E) as (ts & F2 & Fg & [(-> & Fa)|(k & x & J & Nx & Gx & X & M)]); exists (h :: ts);
        (split; [constructor; assumption|]); (split; [constructor; assumption|right]).
      * exists 0%nat, h. split; [lia|]. split; [reflexivity|]. split; [exact Gh|]. split; [exact C|]. intros [|k'] x' Q; cbn in Q.
        { injection Q as <-. split; [apply (ol_irrefl N good O); exact Gh|lia]. }
        { split; [|lia]. rewrite Forall_forall in Fa. apply Fa. apply nth_error_In in Q. exact Q. }
      * exists (S k), x. split; [lia|]. split; [exact Nx|]. split; [exact Gx|].
        split; [exact (ol_trans N good O x h t Gx Gh Gt X C)|]. intros [|k'] x' Q; cbn in Q.
        { injection Q as <-. split; [|intros _; exact X]. destruct (h <? x) eqn:D; [|reflexivity].
          pose proof (ol_trans N good O h x h Gh Gx Gh D X) as Z. rewrite (ol_irrefl N good O h Gh) in Z. discriminate Z. }
        { destruct (M k' x' Q) as (M1 & M2). split; [exact M1|]. intros Lk. apply M2. lia. }
    + destruct (IH r' (i + 1)%Z t index j G' Gt A' B' E) as (ts & F2 & Fg & [(-> & Fa)|(k & x & J & Nx & Gx & X & M)]); exists (h :: ts);
        (split; [constructor; assumption|]); (split; [constructor; assumption|]).
      * left. split; [reflexivity|]. constructor; assumption.
      * right. exists (S k), x. split; [lia|]. split; [exact Nx|]. split; [exact Gx|]. split; [exact X|].
        pose proof (below_then x t h Gx Gt Gh X C) as Xh. intros [|k'] x' Q; cbn in Q.
        { injection Q as <-. split; [|intros _; exact Xh]. destruct (h <? x) eqn:D; [|reflexivity].
          pose proof (ol_trans N good O h x h Gh Gx Gh D Xh) as Z. rewrite (ol_irrefl N good O h Gh) in Z. discriminate Z. }
        { destruct (M k' x' Q) as (M1 & M2). split; [exact M1|]. intros Lk. apply M2. lia. }
Qed.

Lemma fresh_controlled : forall env l cs s1, good #999999 ->
  (forall line cs' c x, l = Some line -> cs = Some cs' -> In c cs' -> tension_under line c = Ok x -> good x) ->
  sa_Update env (sa_fresh l cs) = Ok (true, s1) ->
  exists line cs' ts k, l = Some line /\ cs = Some cs' /\
    Forall2 (fun c x => tension_under line c = Ok x) cs' ts /\ sa_index s1 = Z.of_nat k /\ first_lowest ts k.
Proof.
  intros env l cs s1 Gt G E. destruct (sagged env l cs s1 E) as (line & cs' & c & k & -> & -> & X & V & _ & _ & T & _).
  specialize (fun c x => G line cs' c x eq_refl eq_refl).
  set (i := sa_index s1) in *. clearbody i.
  unfold UpdateControllingConstraintIndex in X. cbn [sa_fresh sa_set_line sa_set_constraints sa_line sa_constraints deref obind] in X.
  destruct (Nat.eqb (length cs') 1) eqn:One.
  - injection X as <-. apply Nat.eqb_eq in One. destruct cs' as [|c0 [|c1 cs']]; try discriminate One.
    cbn in V. injection V as ->. exists line, [c], [c3_tension_horizontal k], 0%nat. split; [reflexivity|]. split; [reflexivity|].
    split; [constructor; [exact T|constructor]|].
    split; [reflexivity|]. exists (c3_tension_horizontal k). split; [reflexivity|]. intros [|[|k']] x' Q; cbn in Q; try discriminate Q.
    injection Q as <-. split; [|lia]. apply (ol_irrefl N good O). apply (G c); [left; reflexivity|exact T].
  - destruct (control_spec line cs' (reloader_to (sr_constraint (lc_payload line))) 0%Z _ (-9999)%Z i G Gt eq_refl eq_refl X)
      as (ts & F2 & _ & [(-> & _)|(k0 & x & J & Nx & _ & _ & M)]).
    + discriminate V.
    + exists line, cs', ts, k0. split; [reflexivity|]. split; [reflexivity|]. split; [exact F2|]. split; [lia|]. exists x. split; [exact Nx|exact M].
Qed.

Lemma controlling : forall env (ks : list (SaCall N)) s i s1, good #999999 -> sa_run env Sagger_new ks = Ok s ->
  (forall line cs c x, last_of pickSa_line ks None = Some line -> last_of pickSa_constraints ks None = Some cs -> In c cs ->
     tension_under line c = Ok x -> good x) ->
  sa_IndexConstraintControlling env s = Ok (i, s1) -> i <> (-9999)%Z ->
  exists line cs ts k, last_of pickSa_line ks None = Some line /\ last_of pickSa_constraints ks None = Some cs /\
    Forall2 (fun c x => tension_under line c = Ok x) cs ts /\ i = Z.of_nat k /\ first_lowest ts k.
Proof.
  intros env ks s i s1 Gt R G E H. destruct (sagger_history env ks s R) as (A & _). rewrite E in A.
  destruct (sa_IndexConstraintControlling env (sa_fresh _ _)) as [(j, f1)| |] eqn:Ef; cbn in A; try discriminate A. injection A as <-.
  destruct (index_updates env _ i f1 Ef H) as (U & <-). exact (fresh_controlled env _ _ f1 Gt G U).
Qed.

End Control.

(** ** The limit and the actual catenaries *)
Section Limits.
Context {N : Num}.

Lemma nth_forall2 : forall (A B : Type) (P : A -> B -> Prop) l l', Forall2 P l l' -> forall i a, vector_at l i = Ok a ->
  exists b, vector_at l' i = Ok b /\ P a b.
Proof.
  intros A B P l l' F i a. unfold vector_at. destruct (i <? 0)%Z; [discriminate|]. generalize (Z.to_nat i). intros n. revert n.
  induction F as [|x y l l' H F IH]; intros [|n] E; cbn in *; try discriminate E.
  - injection E as <-. exists y. auto.
  - exact (IH n E).
Qed.

(** After calls that leave a sagger that has found its controlling constraint. *)
Lemma sagger_results : forall env ks s i s1, sa_run (N := N) env Sagger_new ks = Ok s -> sa_IndexConstraintControlling env s = Ok (i, s1) ->
  i <> (-9999)%Z -> exists line cs c x,
    last_of pickSa_line ks None = Some line /\ last_of pickSa_constraints ks None = Some cs /\ vector_at cs i = Ok c /\
    sa_line s1 = Some (with_limit line x) /\ sa_constraints s1 = Some cs /\ omap fst (sa_LimitConstraint env s) = Ok x /\
    match limited (co_type (sr_constraint (lc_payload line))) with
    | Some q => omap (fun k => c3_answer k q) (catenary_under line c) = Ok (ANum x)
    | None => x = co_limit (sr_constraint (lc_payload line))
    end /\
    (forall j c', vector_at cs j = Ok c' ->
       omap fst (sa_TensionHorizontalActual env s j) = omap c3_tension_horizontal (catenary_at (with_limit line x) c') /\
       omap fst (sa_CatenaryConstantActual env s j) = omap c3_Constant (catenary_at (with_limit line x) c') /\
       omap fst (sa_TensionSupportActual env s j) = omap c3_TensionMax (catenary_at (with_limit line x) c') /\
       omap fst (sa_CapacityAllowable env s j) =
         omap (fun k => match co_type c' with
                        | LmHorizontal => c3_tension_horizontal k / co_limit c'
                        | LmConstant => c3_Constant k / co_limit c'
                        | LmSupport => c3_TensionMax k / co_limit c'
                        | _ => ferr
                        end) (catenary_at (with_limit line x) c')).
Proof.
  intros env ks s i s1 R E H. pose proof (run_family env ks _ _ _ _ (family_new env) R) as Fam.
  destruct (index_updates env s i s1 E H) as (U & <-).
  pose proof (Update_family env s _ _ Fam) as K. rewrite U in K.
  destruct (sa_Update env (sa_fresh _ _)) as [(b, f1)| |] eqn:Uf; cbn [orel] in K; try contradiction.
  destruct K as (Eb & Es & _). cbn [fst snd] in *. subst b. rewrite <- (Es eq_refl) in Uf. clear f1 Es.
  destruct (sagged env _ _ s1 Uf) as (line & cs & c & k & -> & -> & _ & V & L & C & _ & Q & F2).
  pose (own := sr_constraint (lc_payload line)). pose (x := co_limit (reloaded_limit own k)).
  assert (W : with_constraint line (reloaded_limit own k) = with_limit line x) by reflexivity. fold own in L, F2. rewrite W in L, F2.
  exists line, cs, c, x. split; [reflexivity|]. split; [reflexivity|]. split; [exact V|]. split; [exact L|]. split; [exact C|].
  split. { unfold sa_LimitConstraint. rewrite U. cbn [obind]. rewrite L. reflexivity. }
  split.
  { unfold x, reloaded_limit, limited. fold own. destruct (co_type own); try reflexivity; cbn [co_limit]; apply Q. }
  intros j c' Vj. destruct (nth_forall2 _ _ _ _ _ F2 j c' Vj) as (k' & Vk & A).
  unfold sa_TensionHorizontalActual, sa_CatenaryConstantActual, sa_TensionSupportActual, sa_CapacityAllowable, sa_actual.
  rewrite U. cbn [obind]. rewrite Vk, C. cbn [obind deref]. rewrite Vj. cbn [obind].
  pose proof (A Q3TensionHorizontal) as A1. pose proof (A Q3Constant) as A2. pose proof (A Q3TensionMax) as A3.
  destruct (catenary_at (with_limit line x) c') as [k1| |]; cbn in A1, A2, A3 |- *; try discriminate A1.
  injection A1 as A1. injection A2 as A2. injection A3 as A3. rewrite A1, A2, A3. auto.
Qed.

End Limits.
