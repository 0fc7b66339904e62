(** Proofs about elongation models and their pointers: an object that was not copied after
    its update answers as its own value does. *)
From Coq Require Import ZArith Bool List Lia.
From Verif Require Import Num ModelBase ModelCable ModelPolynomial ModelThermal ModelElongation ModelPointed SpecPointed
  ProofElong.
Import ListNotations.
Open Scope num_scope.

Section Pointed.
Context {N : Num}.
Implicit Types m v : ElongModel N.

(** ** Models up to the states their components refer to *)

Definition blank (c : CompModel N) : CompModel N := cm_refer c None None.
Definition wipe m : ElongModel N := em_with_shell (em_with_core m (blank (em_core m))) (blank (em_shell m)).

Definition near (P1 P2 Q1 Q2 : Prop) m v : Prop :=
  wipe m = wipe v /\
  (P1 -> cm_state (em_core m) = cm_state (em_core v)) /\
  (P2 -> cm_stretch (em_core m) = cm_stretch (em_core v)) /\
  (Q1 -> cm_state (em_shell m) = cm_state (em_shell v)) /\
  (Q2 -> cm_stretch (em_shell m) = cm_stretch (em_shell v)).

(** What a query leaves as it is. *)
Definition still_c (c d : CompModel N) : Prop :=
  cm_component c = cm_component d /\ cm_state c = cm_state d /\ cm_stretch c = cm_stretch d.
Definition still m m' : Prop :=
  em_cable m = em_cable m' /\ em_state m = em_state m' /\ em_stretch m = em_stretch m' /\
  em_upd_state m = em_upd_state m' /\ em_upd_stretch m = em_upd_stretch m' /\
  still_c (em_core m) (em_core m') /\ still_c (em_shell m) (em_shell m').

Lemma still_refl : forall m, still m m.
Proof. intros m. unfold still, still_c. tauto. Qed.
Lemma still_trans : forall m1 m2 m3, still m1 m2 -> still m2 m3 -> still m1 m3.
Proof. unfold still, still_c. intuition congruence. Qed.

Lemma same_comp : forall c d : CompModel N, blank c = blank d -> cm_state c = cm_state d -> cm_stretch c = cm_stretch d -> c = d.
Proof.
  intros [] []. unfold blank, cm_refer. cbn. intros H H0 H1. injection H as -> -> -> -> -> -> -> -> -> ->.
  subst. reflexivity.
Qed.

Lemma wipe_fields : forall m v, wipe m = wipe v ->
  em_cable m = em_cable v /\ em_state m = em_state v /\ em_stretch m = em_stretch v /\ em_points m = em_points v /\
  em_upd_state m = em_upd_state v /\ em_upd_stretch m = em_upd_stretch v /\
  blank (em_core m) = blank (em_core v) /\ blank (em_shell m) = blank (em_shell v).
Proof.
  intros m v H. split; [exact (f_equal (@em_cable N) H)|]. split; [exact (f_equal (@em_state N) H)|].
  split; [exact (f_equal (@em_stretch N) H)|]. split; [exact (f_equal (@em_points N) H)|].
  split; [exact (f_equal (@em_upd_state N) H)|]. split; [exact (f_equal (@em_upd_stretch N) H)|].
  split; [exact (f_equal (@em_core N) H)|exact (f_equal (@em_shell N) H)].
Qed.
Lemma fields_wipe : forall m v,
  em_cable m = em_cable v -> em_state m = em_state v -> em_stretch m = em_stretch v -> em_points m = em_points v ->
  em_upd_state m = em_upd_state v -> em_upd_stretch m = em_upd_stretch v ->
  blank (em_core m) = blank (em_core v) -> blank (em_shell m) = blank (em_shell v) -> wipe m = wipe v.
Proof.
  intros [] []. unfold wipe, em_with_shell, em_with_core. cbn -[blank].
  congruence.
Qed.

(** ** Component queries keep the states *)

Lemma UpdateStretch_still : forall (c : CompModel N) ok d, UpdateStretch c = Ok (ok, d) -> still_c c d.
Proof.
  intros c ok d. unfold UpdateStretch. destruct (cm_base c); cbn [obind]; try discriminate.
  destruct (deref (cm_tref c)); cbn [obind]; try discriminate. destruct (deref (cm_stretch c)) as [ss| |]; cbn [obind]; try discriminate.
  destruct (ss_load ss =? #0).
  { intros H; injection H as <- <-. unfold still_c; cbn; tauto. }
  destruct (deref (cm_state c)) as [s| |]; cbn [obind]; try discriminate.
  destruct (ptype_eqb _ _). { intros H; injection H as <- <-. unfold still_c; cbn; tauto. }
  destruct (PointsRegions a _ (cc_creep a) _ _ _) as [pc| |]; cbn [obind]; try discriminate.
  destruct (PointsRegions a _ (cc_loadstrain a) _ _ _) as [pl| |]; cbn [obind]; try discriminate.
  destruct (ss_type ss), (st_type s); try (intros H; injection H as <- <-; unfold still_c; cbn; tauto).
  all: (match goal with |- context [StrainAt ?x1 ?x2 ?x3 ?x4 ?x5 ?x6 ?x7] =>
          destruct (StrainAt x1 x2 x3 x4 x5 x6 x7) as [xs| |] end); cbn [obind]; try discriminate.
  all: (match goal with |- context [stretch_loop ?x1 ?x2 ?x3 ?x4 ?x5 ?x6 ?x7 ?x8] =>
          destruct (stretch_loop x1 x2 x3 x4 x5 x6 x7 x8) as [it lt] end).
  all: destruct (it <? 100)%Z; intros H; injection H as <- <-; unfold still_c; cbn; tauto.
Qed.

Lemma UpdateState_still : forall (c : CompModel N) d, UpdateState c = Ok d -> still_c c d.
Proof.
  intros c d. unfold UpdateState. destruct (deref (cm_state c)) as [s| |]; cbn; try discriminate.
  destruct (cm_base c) as [b| |]; cbn; try discriminate. destruct (deref (cm_tref c)) as [t| |]; cbn; try discriminate.
  destruct (limit_of b (st_type s)) as [l| |]; cbn; try discriminate.
  destruct (PointsRegions _ _ _ _ _ _) as [r| |]; cbn; try discriminate.
  intros H; injection H as <-. unfold still_c; cbn; tauto.
Qed.

Lemma still_c_trans : forall c d e, still_c c d -> still_c d e -> still_c c e.
Proof. unfold still_c. intuition congruence. Qed.
Lemma still_c_flags : forall (c : CompModel N) x y, still_c c (with_flags c x y).
Proof. intros. unfold still_c; cbn; tauto. Qed.

Lemma Update_still : forall (c : CompModel N) ok d, cm_Update c = Ok (ok, d) -> still_c c d.
Proof.
  intros c ok d. unfold cm_Update.
  assert (K : forall ok' d', (if cm_upd_stretch c then Ok (true, c)
     else do (ok, m) <- UpdateStretch c; Ok (ok, with_flags m (cm_upd_state m) ok)) = Ok (ok', d') -> still_c c d').
  { intros ok' d'. destruct (cm_upd_stretch c). { intros H; injection H as <- <-. unfold still_c; tauto. }
    destruct (UpdateStretch c) as [[o e]| |] eqn:E; cbn; try discriminate. intros H; injection H as <- <-.
    apply UpdateStretch_still in E. exact (still_c_trans _ _ _ E (still_c_flags _ _ _)). }
  destruct (if cm_upd_stretch c then _ else _) as [[o e]| |]; cbn; try discriminate.
  specialize (K _ _ eq_refl). destruct o.
  2: { intros H; injection H as <- <-. exact K. }
  destruct (cm_upd_state e). { intros H; injection H as <- <-. exact K. }
  destruct (UpdateState e) as [f| |] eqn:E; cbn; try discriminate. intros H; injection H as <- <-.
  apply UpdateState_still in E. exact (still_c_trans _ _ _ K (still_c_trans _ _ _ E (still_c_flags _ _ _))).
Qed.

Lemma query_still : forall (c : CompModel N) f x d, cm_query c f = Ok (x, d) -> still_c c d.
Proof.
  intros c f x d. unfold cm_query. destruct (cm_Update c) as [[ok e]| |] eqn:E; cbn; try discriminate.
  apply Update_still in E. destruct ok.
  2: { intros H; injection H as <- <-. exact E. }
  destruct (deref (cm_state e)); cbn; try discriminate. destruct (cm_base e); cbn; try discriminate.
  destruct (cm_points e); cbn; try discriminate. destruct (f _ _ _ _); cbn; try discriminate.
  intros H; injection H as <- <-. exact E.
Qed.
Lemma PointsRegions_still : forall (c : CompModel N) l d, cm_PointsRegions c = Ok (l, d) -> still_c c d.
Proof.
  intros c l d. unfold cm_PointsRegions. destruct (cm_Update c) as [[ok e]| |] eqn:E; cbn; try discriminate.
  apply Update_still in E. destruct ok; [destruct (cm_points e)|]; intros H; injection H as <- <-; exact E.
Qed.
Lemma Validate_still : forall w (c : CompModel N) b d, cm_Validate w c = Ok (b, d) -> still_c c d.
Proof.
  intros w c b d. unfold cm_Validate. destruct (cm_inputs_valid c).
  2: { intros H; injection H as <- <-. unfold still_c; tauto. }
  destruct (cm_Update c) as [[ok e]| |] eqn:E; cbn; try discriminate.
  apply Update_still in E. destruct ok.
  2: { intros H; injection H as <- <-. exact E. }
  destruct (cm_base e); cbn; try discriminate. destruct (polynomials_valid _ _); cbn; try discriminate.
  intros H; injection H as <- <-; exact E.
Qed.

(** ** Queries of near models *)

Section On.
Variable a b : bool.
Definition on m : Prop := em_core_on m = Ok a /\ em_shell_on m = Ok b.
Definition alike m v : Prop := near (a = true) (a = true) (b = true) (b = true) m v.

Definition pure {A : Type} (f : ElongModel N -> outcome (A * ElongModel N)) : Prop :=
  forall m v, on m -> alike m v ->
  orel (fun p q => fst p = fst q /\ alike (snd p) (snd q) /\ still m (snd p) /\ still v (snd q)) (f m) (f v).

Lemma on_still : forall m m', on m -> still m m' -> on m'.
Proof. intros m m' [H1 H2] (E & _). unfold on, em_core_on, em_shell_on in *. rewrite <- E. auto. Qed.
Lemma on_wipe : forall m v, on m -> wipe m = wipe v -> on v.
Proof. intros m v [H1 H2] E. apply wipe_fields in E. unfold on, em_core_on, em_shell_on in *. destruct E as (E & _). rewrite <- E. auto. Qed.

Lemma pure_bind : forall (A B : Type) (f : ElongModel N -> outcome (A * ElongModel N)) (g : A -> ElongModel N -> outcome (B * ElongModel N)),
  pure f -> (forall x, pure (g x)) -> pure (fun m => do (x, m) <- f m; g x m).
Proof.
  intros A B f g F G m v O L. eapply orel_bind; [exact (F m v O L)|].
  intros [x m'] [y v'] (E & L' & S1 & S2). cbn in *. subst y.
  specialize (G x m' v' (on_still _ _ O S1) L'). eapply orel_mono; [exact G|].
  intros p q (E & L2 & T1 & T2). repeat split; eauto using still_trans; try apply L2; try apply (still_trans _ _ _ S1 T1);
    try apply (still_trans _ _ _ S2 T2).
Qed.
Lemma pure_ret : forall (A : Type) (x : A), pure (fun m => Ok (x, m)).
Proof. intros A x m v O L. cbn. split; [reflexivity|]. split; [exact L|]. split; apply still_refl. Qed.

Lemma alike_core : forall m v, alike m v -> a = true -> em_core m = em_core v.
Proof. intros m v (W & P1 & P2 & _) E. apply wipe_fields in W. apply same_comp; [apply W|auto|auto]. Qed.
Lemma alike_shell : forall m v, alike m v -> b = true -> em_shell m = em_shell v.
Proof. intros m v (W & _ & _ & Q1 & Q2) E. apply wipe_fields in W. apply same_comp; [apply W|auto|auto]. Qed.

Lemma alike_with_core : forall m v c, alike m v -> alike (em_with_core m c) (em_with_core v c).
Proof.
  intros m v c (W & P1 & P2 & Q1 & Q2). apply wipe_fields in W. destruct W as (W1 & W2 & W3 & W4 & W5 & W6 & W7 & W8).
  repeat split; cbn; auto. apply fields_wipe; cbn; auto.
Qed.
Lemma alike_with_shell : forall m v c, alike m v -> alike (em_with_shell m c) (em_with_shell v c).
Proof.
  intros m v c (W & P1 & P2 & Q1 & Q2). apply wipe_fields in W. destruct W as (W1 & W2 & W3 & W4 & W5 & W6 & W7 & W8).
  repeat split; cbn; auto. apply fields_wipe; cbn; auto.
Qed.
Lemma still_with_core : forall m c, still_c (em_core m) c -> still m (em_with_core m c).
Proof. intros m c H. unfold still in *; cbn. unfold still_c in *. tauto. Qed.
Lemma still_with_shell : forall m c, still_c (em_shell m) c -> still m (em_with_shell m c).
Proof. intros m c H. unfold still in *; cbn. unfold still_c in *. tauto. Qed.

(** A query of the enabled core or shell. *)
Lemma pure_core : forall (A : Type) (q : CompModel N -> outcome (A * CompModel N)), a = true ->
  (forall c x d, q c = Ok (x, d) -> still_c c d) ->
  pure (fun m => do (x, c) <- q (em_core m); Ok (x, em_with_core m c)).
Proof.
  intros A q Ea K m v O L. cbn. pose proof (alike_core m v L Ea) as E. rewrite <- E.
  destruct (q (em_core m)) as [[x d]| |] eqn:Q; cbn; auto.
  apply K in Q. split; [reflexivity|]. split; [apply alike_with_core, L|].
  split; apply still_with_core; [|rewrite <- E]; exact Q.
Qed.
Lemma pure_shell : forall (A : Type) (q : CompModel N -> outcome (A * CompModel N)), b = true ->
  (forall c x d, q c = Ok (x, d) -> still_c c d) ->
  pure (fun m => do (x, c) <- q (em_shell m); Ok (x, em_with_shell m c)).
Proof.
  intros A q Ea K m v O L. cbn. pose proof (alike_shell m v L Ea) as E. rewrite <- E.
  destruct (q (em_shell m)) as [[x d]| |] eqn:Q; cbn; auto.
  apply K in Q. split; [reflexivity|]. split; [apply alike_with_shell, L|].
  split; apply still_with_shell; [|rewrite <- E]; exact Q.
Qed.

Lemma pure_ext : forall (A : Type) (f g : ElongModel N -> outcome (A * ElongModel N)),
  (forall m, on m -> f m = g m) -> pure g -> pure f.
Proof.
  intros A f g E G m v O L. rewrite (E m O), (E v); [exact (G m v O L)|]. apply (on_wipe m); [exact O|apply L].
Qed.

Lemma core_value_pure : forall q : CompModel N -> outcome (N * CompModel N),
  (forall c x d, q c = Ok (x, d) -> still_c c d) -> pure (fun m => core_value m q).
Proof.
  intros q K. destruct a eqn:Ea.
  - apply (pure_ext _ _ (fun m => do (x, c) <- q (em_core m); Ok (x, em_with_core m c))).
    { intros m [O _]. unfold core_value. rewrite O, Ea. reflexivity. }
    apply pure_core; auto.
  - apply (pure_ext _ _ (fun m => Ok (#0, m))).
    { intros m [O _]. unfold core_value. rewrite O, Ea. reflexivity. }
    apply pure_ret.
Qed.
Lemma shell_value_pure : forall q : CompModel N -> outcome (N * CompModel N),
  (forall c x d, q c = Ok (x, d) -> still_c c d) -> pure (fun m => shell_value m q).
Proof.
  intros q K. destruct b eqn:Ea.
  - apply (pure_ext _ _ (fun m => do (x, c) <- q (em_shell m); Ok (x, em_with_shell m c))).
    { intros m [_ O]. unfold shell_value. rewrite O, Ea. reflexivity. }
    apply pure_shell; auto.
  - apply (pure_ext _ _ (fun m => Ok (#0, m))).
    { intros m [_ O]. unfold shell_value. rewrite O, Ea. reflexivity. }
    apply pure_ret.
Qed.

Lemma LoadCore_pure : forall x, pure (fun m => LoadCore m x).
Proof. intros x. apply core_value_pure. intros c y d. apply query_still. Qed.
Lemma LoadShell_pure : forall x, pure (fun m => LoadShell m x).
Proof. intros x. apply shell_value_pure. intros c y d. apply query_still. Qed.
Lemma SlopeCore_pure : forall x, pure (fun m => SlopeCore m x).
Proof. intros x. apply core_value_pure. intros c y d. apply query_still. Qed.
Lemma SlopeShell_pure : forall x, pure (fun m => SlopeShell m x).
Proof. intros x. apply shell_value_pure. intros c y d. apply query_still. Qed.
Lemma StrainCore_pure : forall x, pure (fun m => StrainCore m x).
Proof. intros x. apply core_value_pure. intros c y d. apply query_still. Qed.
Lemma StrainShell_pure : forall x, pure (fun m => StrainShell m x).
Proof. intros x. apply shell_value_pure. intros c y d. apply query_still. Qed.

Lemma LoadCombined_pure : forall x, pure (fun m => LoadCombined m x).
Proof.
  intros x. apply (pure_bind _ _ (fun m => LoadCore m x) (fun p m => do (q, m) <- LoadShell m x; Ok (p + q, m)));
    [apply LoadCore_pure|].
  intros p. apply (pure_bind _ _ (fun m => LoadShell m x) (fun q m => Ok (p + q, m))); [apply LoadShell_pure|].
  intros q. apply pure_ret.
Qed.
Lemma SlopeCombined_pure : forall x, pure (fun m => SlopeCombined m x).
Proof.
  intros x. apply (pure_bind _ _ (fun m => SlopeCore m x) (fun p m => do (q, m) <- SlopeShell m x; Ok (p + q, m)));
    [apply SlopeCore_pure|].
  intros p. apply (pure_bind _ _ (fun m => SlopeShell m x) (fun q m => Ok (p + q, m))); [apply SlopeShell_pure|].
  intros q. apply pure_ret.
Qed.

Lemma strain_loop_pure : forall n load precision lo hi current,
  pure (fun m => strain_loop n m load precision lo hi current).
Proof.
  induction n as [|n IH]; intros load precision lo hi current; cbn [strain_loop].
  - apply pure_ret.
  - destruct (precision <? fabs (p2y current - load)); [|apply pure_ret].
    apply (pure_bind _ _ (fun m => LoadCombined m (p2x lo + (load - p2y lo) / ((p2y hi - p2y lo) / (p2x hi - p2x lo))))
      (fun y m => let current := mkPoint2d (p2x lo + (load - p2y lo) / ((p2y hi - p2y lo) / (p2x hi - p2x lo))) y in
        let '(lo, hi) := strain_bracket load lo hi current in strain_loop n m load precision lo hi current)).
    { apply LoadCombined_pure. }
    intros y. cbv zeta. destruct (strain_bracket _ _ _ _) as [lo' hi']. apply IH.
Qed.

Lemma StrainCombined_pure : forall load, pure (fun m => StrainCombined m load).
Proof.
  intros load m v O L. pose proof L as (W & _). apply wipe_fields in W. destruct W as (W1 & _ & _ & W4 & _).
  unfold StrainCombined. rewrite <- W4, <- W1. destruct (em_points m) as [|pmin rest]; [exact I|]. cbv zeta.
  destruct (load <=? p2y pmin).
  { destruct (deref (em_cable m)) as [c| |]; cbn; auto. destruct (deref (sg_base c)); cbn; auto.
    split; [reflexivity|]. split; [exact L|]. split; apply still_refl. }
  destruct (p2y (last rest pmin) <=? load).
  { apply (pure_bind _ _ (fun m => LoadCombined m (p2x (last rest pmin) + flit 5 (-4)))
      (fun yr m => strain_loop 99 m load (#1 / fpow #10 #2) (last rest pmin)
         (mkPoint2d (p2x (last rest pmin) + flit 5 (-4)) yr) Point2d_default)); auto.
    - apply LoadCombined_pure.
    - intros y. apply strain_loop_pure. }
  destruct (find_region load (pmin :: rest)) as [[lo hi]| |]; cbn [obind]; try exact I.
  apply strain_loop_pure; auto.
Qed.

Lemma load_points_pure : forall l, pure (fun m => load_points m l).
Proof.
  induction l as [|p l IH]; cbn [load_points].
  - apply pure_ret.
  - apply (pure_bind _ _ (fun m => LoadCombined m (p2x p))
      (fun y m => do (l, m) <- load_points m l; Ok (mkPoint2d (p2x p) y :: l, m))); [apply LoadCombined_pure|].
    intros y. apply (pure_bind _ _ (fun m => load_points m l) (fun l m => Ok (mkPoint2d (p2x p) y :: l, m))); auto.
    intros l'. apply pure_ret.
Qed.

Lemma with_points_pure : forall l, pure (fun m => Ok (tt, em_with_points m l)).
Proof.
  intros l m v O (W & P). cbn. split; [reflexivity|]. apply wipe_fields in W. destruct W as (W1 & W2 & W3 & W4 & W5 & W6 & W7 & W8).
  split; [split; [apply fields_wipe; cbn; auto|exact P]|]. unfold still, still_c; cbn; tauto.
Qed.

Lemma pure_lift : forall (A B : Type) (x : outcome B) (f : B -> ElongModel N -> outcome (A * ElongModel N)),
  (forall y, pure (f y)) -> pure (fun m => do y <- x; f y m).
Proof. intros A B x f F m v O L. destruct x as [y| |]; cbn; auto. exact (F y m v O L). Qed.

Lemma UpdatePointsRegions_pure : pure (fun m => do m <- UpdatePointsRegions m; Ok (tt, m)).
Proof.
  apply (pure_ext _ _ (fun m =>
    do (pc, m) <- (if a then do (l, c) <- cm_PointsRegions (em_core m); Ok (l, em_with_core m c) else Ok ([], m));
    do (pl, m) <- (if b then do (l, c) <- cm_PointsRegions (em_shell m); Ok (l, em_with_shell m c) else Ok ([], m));
    do l <- sort_x (pc ++ pl);
    do (l, m) <- load_points m l;
    Ok (tt, em_with_points m l))).
  { intros m [O1 O2]. unfold UpdatePointsRegions. rewrite O1. cbn [obind].
    assert (K : forall pc m', (if a then do (l, c) <- cm_PointsRegions (em_core m); Ok (l, em_with_core m c) else Ok ([], m)) = Ok (pc, m') ->
      em_shell_on m' = Ok b).
    { intros pc m'. destruct a.
      - destruct (cm_PointsRegions (em_core m)) as [[l c]| |]; cbn; try discriminate. intros H; injection H as <- <-. exact O2.
      - intros H; injection H as <- <-. exact O2. }
    destruct (if a then _ else _) as [[pc m']| |]; cbn [obind]; auto. rewrite (K _ _ eq_refl). cbn [obind].
    destruct (if b then _ else _) as [[pl m'']| |]; cbn [obind]; auto.
    destruct (sort_x (pc ++ pl)); cbn [obind]; auto. destruct (load_points _ _) as [[l m3]| |]; reflexivity. }
  apply (pure_bind _ _ (fun m => if a then do (l, c) <- cm_PointsRegions (em_core m); Ok (l, em_with_core m c) else Ok ([], m))
    (fun pc m => do (pl, m) <- (if b then do (l, c) <- cm_PointsRegions (em_shell m); Ok (l, em_with_shell m c) else Ok ([], m));
       do l <- sort_x (pc ++ pl); do (l, m) <- load_points m l; Ok (tt, em_with_points m l))).
  { destruct a eqn:Ea. 2: apply pure_ret. apply pure_core; auto. intros c x d. apply PointsRegions_still. }
  intros pc.
  apply (pure_bind _ _ (fun m => if b then do (l, c) <- cm_PointsRegions (em_shell m); Ok (l, em_with_shell m c) else Ok ([], m))
    (fun pl m => do l <- sort_x (pc ++ pl); do (l, m) <- load_points m l; Ok (tt, em_with_points m l))).
  { destruct b eqn:Eb. 2: apply pure_ret. apply pure_shell; auto. intros c x d. apply PointsRegions_still. }
  intros pl. apply pure_lift. intros l.
  apply (pure_bind _ _ (fun m => load_points m l) (fun l m => Ok (tt, em_with_points m l))); [apply load_points_pure|].
  apply with_points_pure.
Qed.

End On.
End Pointed.
