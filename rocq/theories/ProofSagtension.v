(** Proofs about the line cable loaders in any arithmetic: their answers follow from the
    last setters. *)
From Coq Require Import ZArith Bool List.
From Verif Require Import Num ModelBase ModelLine ModelCable ModelCatenary SpecCatenary ProofCatenary ModelSolver ProofSolver
  ModelLoad ModelThermal ModelElongation SpecElong ProofElong ProofElongHistory ModelReload SpecReload ProofReload
  ModelSagtension SpecSagtension.
Import ListNotations.
Open Scope num_scope.

Section Sagtension.
Context {N : Num}.

(** ** The reloader of a catenary, used or not *)
Definition ralike (r s : CatReloader N) : Prop :=
  rkeys r = rkeys s /\ rl_updated r = rl_updated s /\ (rl_updated r = true -> twin_h (rl_result r) (rl_result s)).

(** Equal answers, like reloaders, mates in the memory, which keeps its inputs. *)
Definition apaired {A : Type} (m : Models N) (r : CatReloader N) (p q : A * (Models N * CatReloader N)) : Prop :=
  fst p = fst q /\ mmates (fst (snd p)) (fst (snd q)) /\ mmates m (fst (snd p)) /\
  ralike (snd (snd p)) (snd (snd q)) /\ rkeys (snd (snd p)) = rkeys r.

Variables (cats : Cats N) (weights : Weights N).

Lemma Update_alike : forall m n r s, mmates m n -> ralike r s ->
  orel (fun p q => apaired m r p q /\ (fst p = true -> twin_h (rl_result (snd (snd p))) (rl_result (snd (snd q)))) /\
                   rl_updated (snd (snd p)) = fst p)
    (rl_Update cats weights m r) (rl_Update cats weights n s).
Proof.
  intros m n r s M (K & U & T). assert (TM : forall a, tracked (m a)) by (intros a; apply (M a)).
  destruct (rl_updated r) eqn:E.
  - unfold rl_Update. rewrite E, <- U. cbn [orel]. unfold apaired, ralike. cbn [fst snd].
    split; [|auto]. split; [reflexivity|]. split; [exact M|]. split; [apply (mmates_self m n M)|].
    split; [|reflexivity]. split; [exact K|]. split; [congruence|auto].
  - pose proof (Update_paired cats weights m n r s M K E (eq_sym U)) as Q.
    destruct (rl_Update cats weights m r) as [(b, (m1, r1))| |] eqn:E1, (rl_Update cats weights n s) as [(b', (m2, r2))| |] eqn:E2;
      cbn [orel] in Q |- *; try contradiction; try exact I.
    destruct Q as ((A & B & C & D & TW) & K1 & V). cbn [fst snd] in *. subst b'.
    assert (M1 := Update_mates cats weights m r b (m1, r1) TM E1). cbn [fst] in M1.
    split; [|split; [auto|exact V]]. unfold apaired, ralike. cbn [fst snd].
    split; [reflexivity|]. split; [exact B|]. split; [exact M1|]. split; [|exact K1].
    split; [congruence|]. split; [exact D|]. intros _. exact TW.
Qed.

Lemma average_same : forall c d : Catenary3d N, twin_h c d -> c3_TensionAverage c 100 = c3_TensionAverage d 100.
Proof. intros c d H. exact (num_answer _ _ (Q3TensionAverage 100) _ _ H eq_refl eq_refl). Qed.

Lemma Validate_alike : forall m n r s, mmates m n -> ralike r s ->
  orel (fun p q => apaired m r p q /\ (fst p = true -> rl_updated (snd (snd p)) = true))
    (rl_Validate cats weights false m r) (rl_Validate cats weights false n s).
Proof.
  intros m n r s M (K & U & T). assert (R := conj K (conj U T) : ralike r s).
  unfold rkeys in K. injection K as K1 K2 K3 K4. unfold rl_Validate. rewrite <- K1, <- K2, <- K3, <- K4.
  eapply orel_bind; [apply model_valid_paired, M|]. intros (v1, m1) (v1', n1) (E1 & P1 & Q1). cbn [fst snd] in *. subst v1'.
  eapply orel_bind; [apply model_valid_paired, P1|]. intros (v2, m2) (v2', n2) (E2 & P2 & Q2). cbn [fst snd] in *. subst v2'.
  destruct (_ && _ && _ && _).
  - eapply orel_mono; [apply Update_alike; eassumption|]. intros p q ((A & B & C & D & E) & _ & F).
    split; [|rewrite F; auto]. unfold apaired. split; [exact A|]. split; [exact B|]. split; [|auto].
    eapply mmates_trans; [exact Q1|]. eapply mmates_trans; eassumption.
  - cbn [orel fst snd]. split; [|discriminate]. unfold apaired. cbn [fst snd].
    split; [reflexivity|]. split; [exact P2|]. split; [eapply mmates_trans; eassumption|]. auto.
Qed.

Lemma Catenary_alike : forall m n r s, mmates m n -> ralike r s ->
  orel (fun p q => twin_h (fst p) (fst q) /\ mmates (fst (snd p)) (fst (snd q)) /\ mmates m (fst (snd p)) /\
                   ralike (snd (snd p)) (snd (snd q)) /\ rkeys (snd (snd p)) = rkeys r)
    (rl_CatenaryReloaded cats weights m r) (rl_CatenaryReloaded cats weights n s).
Proof.
  intros m n r s M R. unfold rl_CatenaryReloaded. eapply orel_bind; [apply Update_alike; eassumption|].
  intros (b, (m1, r1)) (b', (n1, s1)) ((E & B & C & D & K) & T & _). cbn [fst snd] in *. subst b'. cbn [orel fst snd].
  split; [|auto]. destruct b; [apply T; reflexivity|].
  split; [|reflexivity]. split; [intros X; discriminate X|]. split; [intros X; discriminate X|auto].
Qed.

End Sagtension.

Section Loader.
Context {N : Num}.
Implicit Types b : Loader N.

Lemma average_reloaded_alike : forall c w (m n : Models N) r s, mmates m n -> ralike r s ->
  orel (apaired m r) (average_reloaded c w m r) (average_reloaded c w n s).
Proof.
  intros c w m n r s M R. unfold average_reloaded. eapply orel_bind; [apply Catenary_alike; eassumption|].
  intros (k, st) (k', st') (T & A). cbn [fst snd] in *. cbn [orel]. unfold apaired. cbn [fst snd].
  split; [apply average_same, T|exact A].
Qed.

(** ** The stretch of the constraint model *)
Lemma mates_stretch : forall (m n : ElongModel N) s, mates m n -> mates (em_set_stretch m s) (em_set_stretch n s).
Proof.
  intros m n s (A & B & C & D & E). split; [apply tracked_set_stretch, A|]. split; [apply tracked_set_stretch, B|].
  cbn. auto.
Qed.
Lemma stretch_by_mates : forall (m n : Models N) x, mmates m n -> mmates (stretch_by m x) (stretch_by n x).
Proof.
  intros m n x M. unfold stretch_by. apply put_mates; [exact M|].
  assert (H := M at_constraint). destruct H as (_ & _ & _ & D & _). rewrite <- D. apply mates_stretch, M.
Qed.

Lemma stretch_gap_alike : forall c w (m n : Models N) r s x, mmates m n -> rkeys r = rkeys s ->
  orel (fun p q => fst p = fst q /\ mmates (fst (snd p)) (fst (snd q)) /\ rkeys (snd (snd p)) = rkeys (snd (snd q)))
    (stretch_gap c w m r x) (stretch_gap c w n s x).
Proof.
  intros c w m n r s x M K. unfold stretch_gap. eapply orel_bind.
  - apply average_reloaded_alike; [apply stretch_by_mates, M|].
    unfold rkeys in K. injection K as K1 K2 K3 K4. split; [unfold rkeys; cbn; congruence|]. split; [reflexivity|].
    cbn. discriminate.
  - intros (t, st) (t', st') (E & A & _ & (K' & _) & _). cbn [fst snd] in *. subst t'. cbn [orel fst snd]. auto.
Qed.

Definition xmates (s t : Stretch N) : Prop :=
  sx_left s = sx_left t /\ sx_right s = sx_right t /\ sx_current s = sx_current t /\ sx_iter s = sx_iter t /\
  mmates (sx_models s) (sx_models t) /\ rkeys (sx_reloader s) = rkeys (sx_reloader t).

Lemma stretch_pass_alike : forall c w s t, xmates s t -> orel xmates (stretch_pass c w s) (stretch_pass c w t).
Proof.
  intros c w s t (A & B & C & D & E & F). unfold stretch_pass. rewrite <- A, <- B, <- D.
  eapply orel_bind; [apply stretch_gap_alike; eassumption|].
  intros (y, st) (y', st') (Y & M & K). cbn [fst snd] in *. subst y'. destruct (next_stretch _ _ _) as [l r].
  cbn [orel]. unfold xmates. cbn. auto 10.
Qed.

Lemma stretch_loop_alike : forall c w fuel s t, xmates s t -> orel xmates (stretch_loop fuel c w s) (stretch_loop fuel c w t).
Proof.
  intros c w. induction fuel as [|n IH]; intros s t H; [exact H|]. cbn [stretch_loop].
  assert (E : stretch_on s = stretch_on t).
  { destruct H as (_ & _ & C & D & _). unfold stretch_on. rewrite C, D. reflexivity. }
  rewrite <- E. destruct (stretch_on s); [|exact H]. eapply orel_bind; [apply stretch_pass_alike, H|]. intros a b K. apply IH, K.
Qed.

Lemma SolveStretch_alike : forall c w x (m n : Models N) a, mmates m n ->
  orel spaired (SolveStretch c w x m a) (SolveStretch c w x n a).
Proof.
  intros c w x m n a M. unfold SolveStretch. eapply orel_bind.
  - apply average_reloaded_alike; [exact M|]. split; [reflexivity|]. split; [reflexivity|]. cbn. discriminate.
  - intros (t, st) (t', st') (E & A & _ & (K & _) & _). cbn [fst snd] in *. subst t'.
    apply (orel_bind _ _ _ _ eq); [apply orel_eq|]. intros y y' <-.
    eapply orel_bind; [apply stretch_gap_alike; eassumption|].
    intros (z, st1) (z', st1') (Z & A1 & K1). cbn [fst snd] in *. subst z'.
    assert (H := M at_constraint). destruct H as (_ & _ & _ & D & _). rewrite <- D.
    eapply orel_bind; [apply stretch_loop_alike|].
    + unfold xmates. cbn. auto 10.
    + intros s u (_ & _ & _ & I & M1 & _). cbn [orel]. rewrite <- I. destruct (sx_iter s <? 100)%Z; split; cbn [fst snd]; try reflexivity; try exact M1.
      apply stretch_by_mates, M1.
Qed.

(** ** Setting a model *)
Lemma set_model_mates : forall (c : StCable N) m n s ss, orel mates (set_model c m s ss) (set_model c n s ss).
Proof.
  intros c m n s ss. unfold set_model. pose proof (set_cable_tkey m n c) as T.
  destruct (em_set_cable m (Some c)) as [p| |] eqn:E1, (em_set_cable n (Some c)) as [q| |] eqn:E2; cbn [orel obind] in *;
    try contradiction; try exact I.
  destruct (set_cable_facts _ _ _ E1) as (F1 & _ & _ & F2 & F3). destruct (set_cable_facts _ _ _ E2) as (G1 & _ & _ & G2 & G3).
  assert (A : forall x p, em_set_cable x (Some c) = Ok p -> em_upd_stretch p = false -> tracked (em_set_stretch (em_set_state p s) ss)).
  { intros x p' E U. apply tracked_set_stretch, tracked_set_state; [apply (tracked_set_cable x _ _ E)|congruence]. }
  split; [apply (A m p E1 F3)|]. split; [apply (A n q E2 G3)|]. cbn. split; [congruence|auto].
Qed.

(** ** The base class *)

(** Loaders with the same inputs. *)
Definition binputs (b c : Loader N) : Prop := lb_line b = lb_line c /\ lb_cable b = lb_cable c.
Definition bmodels (b c : Loader N) : Prop :=
  mates (lb_model_constraint b) (lb_model_constraint c) /\ mates (lb_model_creep b) (lb_model_creep c) /\
  mates (lb_model_load b) (lb_model_load c).
(** ... and the same results. *)
Definition bsame (b c : Loader N) : Prop :=
  binputs b c /\ lb_catenary b = lb_catenary c /\ bmodels b c /\ lb_creep b = lb_creep c /\ lb_load b = lb_load c.

Lemma memory_mates : forall b c x y, bmodels b c -> mates x y -> mmates (lb_memory b x) (lb_memory c y).
Proof.
  intros b c x y (A & B & C) M a. unfold lb_memory. destruct (a =? at_constraint)%Z; [exact A|].
  destruct (a =? at_creep)%Z; [exact B|]. destruct (a =? at_load)%Z; [exact C|exact M].
Qed.
Lemma mates_new : mates (N := N) ElongModel_new ElongModel_new.
Proof. unfold mates. pose proof (tracked_new (N := N)). auto. Qed.
Lemma with_models : forall b c m n, mmates m n -> bmodels (lb_with_models b m) (lb_with_models c n).
Proof. intros b c m n M. split; [apply M|]. split; apply M. Qed.

Lemma bsame_trans : forall b c d, bsame b c -> bsame c d -> bsame b d.
Proof.
  intros b c d ((A1 & A2) & A3 & (A4 & A5 & A6) & A7 & A8) ((B1 & B2) & B3 & (B4 & B5 & B6) & B7 & B8).
  split; [split; congruence|]. split; [congruence|].
  split; [split; [eapply mates_trans; eassumption|split; eapply mates_trans; eassumption]|]. split; congruence.
Qed.
Lemma bsame_sym : forall b c, bsame b c -> bsame c b.
Proof.
  intros b c ((A1 & A2) & A3 & (A4 & A5 & A6) & A7 & A8).
  split; [split; congruence|]. split; [congruence|].
  split; [split; [apply mates_sym; assumption|split; apply mates_sym; assumption]|]. split; congruence.
Qed.
(** Queries of the models keep a loader. *)
Lemma bsame_models : forall b m x, bmodels b b -> mmates (lb_memory b x) m -> bsame b (lb_with_models b m).
Proof.
  intros b m x B M. split; [split; reflexivity|]. split; [reflexivity|]. split; [|split; reflexivity].
  split; [apply (M at_constraint)|]. split; [apply (M at_creep)|apply (M at_load)].
Qed.

Lemma UpdateConstraintCatenary_alike : forall b c, binputs b c ->
  orel (fun p q => fst p = fst q /\ binputs (snd p) b /\ binputs (snd q) b /\
                   (fst p = true -> lb_catenary (snd p) = lb_catenary (snd q)))
    (UpdateConstraintCatenary b) (UpdateConstraintCatenary c).
Proof.
  intros b c (A & B). unfold UpdateConstraintCatenary. rewrite <- A.
  apply (orel_bind _ _ _ _ eq); [apply orel_eq|]. intros l l' <-.
  apply (orel_bind _ _ _ _ eq); [apply orel_eq|]. intros k k' <-. cbn [orel].
  destruct (c3_Validate k); cbn [fst snd]; unfold binputs; cbn; repeat split; try congruence; discriminate.
Qed.

Lemma Initialize_alike : forall b c l, binputs b c -> lb_catenary b = lb_catenary c -> lb_line b = Some l ->
  orel (fun p q => binputs p b /\ binputs q b /\ lb_catenary p = lb_catenary q /\
                   (known_condition (co_condition (sr_constraint (lc_payload l))) = true -> bmodels p q))
    (InitializeLineCableModels b) (InitializeLineCableModels c).
Proof.
  intros b c l (A & B) C L. unfold InitializeLineCableModels. rewrite <- A, L, <- B. cbn [deref obind].
  apply (orel_bind _ _ _ _ eq); [apply orel_eq|]. intros w w' <-.
  set (o := match co_condition (sr_constraint (lc_payload l)) with CdNull => _ | _ => _ end).
  assert (O : known_condition (co_condition (sr_constraint (lc_payload l))) = true -> o <> Ok None).
  { unfold o. destruct (co_condition _); cbn; try discriminate; intros _;
      [destruct (sr_creep (lc_payload l))|destruct (sr_load (lc_payload l))]; cbn; discriminate. }
  clearbody o. destruct o as [[stretch|]| |]; cbn [obind]; try exact I.
  - eapply orel_bind; [apply set_model_mates|]. intros m0 n0 M0.
    apply (orel_bind _ _ _ _ eq); [apply orel_eq|]. intros w1 w1' <-.
    eapply orel_bind; [apply set_model_mates|]. intros m1 n1 M1.
    apply (orel_bind _ _ _ _ eq); [apply orel_eq|]. intros w2 w2' <-.
    eapply orel_bind; [apply set_model_mates|]. intros m2 n2 M2. cbn [orel]. unfold binputs, bmodels. cbn.
    split; [auto|]. split; [split; congruence|]. auto.
  - cbn [orel]. split; [split; reflexivity|]. split; [split; congruence|]. split; [exact C|].
    intros K. contradiction (O K). reflexivity.
Qed.

Lemma UpdateConstraintCableModel_alike : forall b c l, binputs b c -> lb_catenary b = lb_catenary c -> lb_line b = Some l ->
  (known_condition (co_condition (sr_constraint (lc_payload l))) = true -> bmodels b c) ->
  orel (fun p q => fst p = fst q /\ binputs (snd p) b /\ binputs (snd q) b /\
                   (fst p = true -> lb_catenary (snd p) = lb_catenary (snd q) /\ bmodels (snd p) (snd q) /\
                      known_condition (co_condition (sr_constraint (lc_payload l))) = true))
    (UpdateConstraintCableModel b) (UpdateConstraintCableModel c).
Proof.
  intros b c l (A & B) C L M. unfold UpdateConstraintCableModel. rewrite <- A, <- B, <- C, L. cbn [deref obind].
  assert (I : binputs b b /\ binputs c b) by (split; split; congruence).
  assert (Solve : forall weather a, known_condition (co_condition (sr_constraint (lc_payload l))) = true ->
    orel (fun p q => fst p = fst q /\ binputs (snd p) b /\ binputs (snd q) b /\
           (fst p = true -> lb_catenary (snd p) = lb_catenary (snd q) /\ bmodels (snd p) (snd q) /\
              known_condition (co_condition (sr_constraint (lc_payload l))) = true))
      (do w <- unit_load (lc_payload l) weather;
       do (ok, mem) <- SolveStretch (lb_catenary b) w (strength_of (lb_cable b)) (lb_memory b ElongModel_new) a;
       Ok (ok, lb_with_models b mem))
      (do w <- unit_load (lc_payload l) weather;
       do (ok, mem) <- SolveStretch (lb_catenary b) w (strength_of (lb_cable b)) (lb_memory c ElongModel_new) a;
       Ok (ok, lb_with_models c mem))).
  { intros weather a K. apply (orel_bind _ _ _ _ eq); [apply orel_eq|]. intros w w' <-.
    eapply orel_bind; [apply SolveStretch_alike, memory_mates; [apply M, K|apply mates_new]|].
    intros (v, m) (v', n) (E & MM). cbn [fst snd] in *. subst v'. cbn [orel fst snd].
    split; [reflexivity|]. split; [split; reflexivity|]. split; [split; cbn; congruence|].
    intros _. split; [exact C|]. split; [apply with_models, MM|exact K]. }
  destruct (co_condition (sr_constraint (lc_payload l))) eqn:Co; cbn [orel fst snd].
  - split; [reflexivity|]. split; [apply I|]. split; [apply I|]. discriminate.
  - apply Solve. reflexivity.
  - split; [reflexivity|]. split; [apply I|]. split; [apply I|]. intros _. split; [exact C|]. split; [apply M; reflexivity|reflexivity].
  - apply Solve. reflexivity.
Qed.

Lemma reloaded_stretch_alike : forall k s weather a (m n : Models N) r u, mmates m n -> rkeys r = rkeys u ->
  orel (fun p q => fst p = fst q /\ mmates (fst (snd p)) (fst (snd q)) /\ mmates m (fst (snd p)) /\
                   rkeys (snd (snd p)) = rkeys (snd (snd q)))
    (reloaded_stretch k s weather a m r) (reloaded_stretch k s weather a n u).
Proof.
  intros k s weather a m n r u M K. unfold reloaded_stretch.
  apply (orel_bind _ _ _ _ eq); [apply orel_eq|]. intros w w' <-.
  eapply orel_bind.
  - apply Validate_alike with (m := m) (n := n); [exact M|].
    unfold rkeys in K. injection K as K1 K2 K3 K4. split; [unfold rkeys; cbn; congruence|]. split; [reflexivity|]. cbn. discriminate.
  - intros (v, (m1, r1)) (v', (n1, u1)) ((E & M1 & M2 & R & KK) & _). cbn [fst snd] in *. subst v'. destruct v.
    + eapply orel_bind; [apply average_reloaded_alike; eassumption|].
      intros (t, (m3, r3)) (t', (n3, u3)) (E & M3 & M4 & (K3 & _) & _). cbn [fst snd] in *. subst t'. cbn [orel fst snd].
      destruct (M3 a) as (_ & _ & _ & _ & S). rewrite S. split; [reflexivity|]. split; [exact M3|].
      split; [eapply mmates_trans; eassumption|exact K3].
    + cbn [orel fst snd]. split; [reflexivity|]. split; [exact M1|]. split; [exact M2|apply R].
Qed.

(** The state in the update of the stretches. *)
Definition tpaired (b : Loader N) (p q : bool * (Loader N * CatReloader N)) : Prop :=
  fst p = fst q /\ binputs (fst (snd p)) b /\ binputs (fst (snd q)) b /\
  lb_catenary (fst (snd p)) = lb_catenary (fst (snd q)) /\ bmodels (fst (snd p)) (fst (snd q)) /\
  rkeys (snd (snd p)) = rkeys (snd (snd q)).

Lemma UpdateCreep_alike : forall b c s r u, binputs b c -> lb_catenary b = lb_catenary c -> bmodels b c -> rkeys r = rkeys u ->
  orel (fun p q => tpaired b p q /\ (fst p = true -> lb_creep (fst (snd p)) = lb_creep (fst (snd q))))
    (UpdateCreep b s r) (UpdateCreep c s u).
Proof.
  intros b c s r u (A & B) C M K. unfold UpdateCreep. rewrite <- C.
  assert (Solve : orel (fun p q => tpaired b p q /\ (fst p = true -> lb_creep (fst (snd p)) = lb_creep (fst (snd q))))
    (do (v, st) <- reloaded_stretch (lb_catenary b) s (sr_creep s) at_creep (lb_memory b ElongModel_new) r;
      let b := lb_with_models b (fst st) in
      match v with
      | Some v => Ok (true, (lb_with_creep b v, snd st))
      | None => Ok (false, (b, snd st))
      end)
    (do (v, st) <- reloaded_stretch (lb_catenary b) s (sr_creep s) at_creep (lb_memory c ElongModel_new) u;
      let b := lb_with_models c (fst st) in
      match v with
      | Some v => Ok (true, (lb_with_creep b v, snd st))
      | None => Ok (false, (b, snd st))
      end)).
  { eapply orel_bind; [apply reloaded_stretch_alike; [apply memory_mates; [exact M|apply mates_new]|exact K]|].
    intros (v, (m, r1)) (v', (n, u1)) (E & MM & _ & K1). cbn [fst snd] in *. subst v'.
    pose proof (with_models b c m n MM) as W.
    destruct v; cbn [orel]; unfold tpaired; cbn [fst snd]; (split; [|reflexivity || discriminate]);
      (split; [reflexivity|]; split; [split; reflexivity|]; split; [split; cbn; congruence|]; split; [exact C|]; split; [exact W|exact K1]). }
  destruct (co_condition (sr_constraint s)); try exact Solve.
  cbn [orel]. unfold tpaired. cbn [fst snd]. split.
  - split; [reflexivity|]; split; [split; reflexivity|]; split; [split; cbn; congruence|]; split; [exact C|]; split; [exact M|exact K].
  - intros _. cbn. apply M.
Qed.

Lemma UpdateLoad_alike : forall b c s r u, binputs b c -> lb_catenary b = lb_catenary c -> bmodels b c -> rkeys r = rkeys u ->
  lb_creep b = lb_creep c ->
  orel (fun p q => tpaired b p q /\ (fst p = true -> lb_creep (fst (snd p)) = lb_creep (fst (snd q)) /\
                                                    lb_load (fst (snd p)) = lb_load (fst (snd q))))
    (UpdateLoad b s r) (UpdateLoad c s u).
Proof.
  intros b c s r u (A & B) C M K Cr. unfold UpdateLoad. rewrite <- C.
  assert (Solve : orel (fun p q => tpaired b p q /\ (fst p = true -> lb_creep (fst (snd p)) = lb_creep (fst (snd q)) /\
                                                    lb_load (fst (snd p)) = lb_load (fst (snd q))))
    (do (v, st) <- reloaded_stretch (lb_catenary b) s (sr_load s) at_load (lb_memory b ElongModel_new) r;
      let b := lb_with_models b (fst st) in
      match v with
      | Some v => Ok (true, (lb_with_load b v, snd st))
      | None => Ok (false, (b, snd st))
      end)
    (do (v, st) <- reloaded_stretch (lb_catenary b) s (sr_load s) at_load (lb_memory c ElongModel_new) u;
      let b := lb_with_models c (fst st) in
      match v with
      | Some v => Ok (true, (lb_with_load b v, snd st))
      | None => Ok (false, (b, snd st))
      end)).
  { eapply orel_bind; [apply reloaded_stretch_alike; [apply memory_mates; [exact M|apply mates_new]|exact K]|].
    intros (v, (m, r1)) (v', (n, u1)) (E & MM & _ & K1). cbn [fst snd] in *. subst v'.
    pose proof (with_models b c m n MM) as W.
    destruct v; cbn [orel]; unfold tpaired; cbn [fst snd]; (split; [|(intros _; split; [exact Cr|reflexivity]) || discriminate]);
      (split; [reflexivity|]; split; [split; reflexivity|]; split; [split; cbn; congruence|]; split; [exact C|]; split; [exact W|exact K1]). }
  destruct (co_condition (sr_constraint s)); try exact Solve.
  cbn [orel]. unfold tpaired. cbn [fst snd]. split.
  - split; [reflexivity|]; split; [split; reflexivity|]; split; [split; cbn; congruence|]; split; [exact C|]; split; [exact M|exact K].
  - intros _. cbn. split; [exact Cr|apply M].
Qed.

Lemma UpdateLoadStretch_alike : forall b c, binputs b c -> lb_catenary b = lb_catenary c -> bmodels b c ->
  orel (fun p q => fst p = fst q /\ binputs (snd p) b /\ binputs (snd q) b /\ (fst p = true -> bsame (snd p) (snd q)))
    (UpdateLoadStretch b) (UpdateLoadStretch c).
Proof.
  intros b c (A & B) C M. unfold UpdateLoadStretch. rewrite <- A.
  apply (orel_bind _ _ _ _ eq); [apply orel_eq|]. intros l l' <-.
  eapply orel_bind; [apply UpdateCreep_alike; try eassumption; [split; assumption|reflexivity]|].
  intros (v, (b1, r1)) (v', (c1, u1)) ((E & I1 & I2 & Ca & M1 & K1) & Cr). cbn [fst snd] in *. subst v'. destruct v.
  - assert (I12 : binputs b1 c1) by (destruct I1, I2; split; congruence).
    eapply orel_bind; [apply UpdateLoad_alike; [exact I12|exact Ca|exact M1|exact K1|apply Cr; reflexivity]|].
    intros (v, (b2, r2)) (v', (c2, u2)) ((E & I3 & I4 & Ca2 & M2 & K2) & Cr2). cbn [fst snd] in *. subst v'. cbn [orel fst snd].
    assert (P1 : binputs b2 b) by (destruct I1, I3; split; congruence).
    assert (P2 : binputs c2 b) by (destruct I1, I4; split; congruence).
    split; [reflexivity|]. split; [exact P1|]. split; [exact P2|].
    intros V. destruct (Cr2 V) as (D1 & D2).
    split; [destruct P1, P2; split; congruence|]. split; [exact Ca2|]. split; [exact M2|]. split; assumption.
  - cbn [orel fst snd]. split; [reflexivity|]. split; [exact I1|]. split; [exact I2|]. discriminate.
Qed.

(** After a successful update the results are the same; the status is the update flag. *)
Definition upaired_b (b : Loader N) (p q : bool * Loader N) : Prop :=
  fst p = fst q /\ binputs (snd p) b /\ binputs (snd q) b /\ lb_IsUpdated (snd p) = fst p /\ lb_IsUpdated (snd q) = fst q /\
  (fst p = true -> bsame (snd p) (snd q)).

Lemma lb_Update_alike : forall b c, binputs b c -> orel (upaired_b b) (lb_Update b) (lb_Update c).
Proof.
  intros b c I. unfold lb_Update. eapply orel_bind; [apply UpdateConstraintCatenary_alike, I|].
  intros (v, b1) (v', c1) (E & I1 & I2 & Ca). cbn [fst snd] in *. subst v'.
  destruct v; [|cbn [orel]; unfold upaired_b; cbn [fst snd]; split; [reflexivity|]; split; [exact I1|]; split; [exact I2|];
                 split; [reflexivity|]; split; [reflexivity|discriminate]].
  destruct (lb_line b) as [l|] eqn:L.
  2: { unfold InitializeLineCableModels. cbn [lb_with_flags lb_line]. destruct I1 as (X1 & _), I2 as (X2 & _). rewrite X1, X2, L.
       cbn [deref obind orel]. exact Logic.I. }
  set (b2 := lb_with_flags b1 true (lb_upd_stretch b1)). set (c2 := lb_with_flags c1 true (lb_upd_stretch c1)).
  assert (J : binputs b2 c2) by (destruct I1, I2; split; cbn; congruence).
  assert (L2 : lb_line b2 = Some l) by (destruct I1; cbn; congruence).
  assert (B2 : binputs b2 b) by (destruct I1; split; cbn; congruence).
  eapply orel_bind; [apply (Initialize_alike b2 c2 l J); [apply Ca; reflexivity|exact L2]|].
  intros b3 c3 (P1 & P2 & Ca3 & M3). clearbody b2 c2. clear c1 Ca I2 J.
  assert (J3 : binputs b3 c3) by (destruct P1, P2; split; congruence).
  assert (L3 : lb_line b3 = Some l) by (destruct P1; congruence).
  eapply orel_bind; [apply (UpdateConstraintCableModel_alike b3 c3 l J3 Ca3 L3 M3)|].
  intros (v, b4) (v', c4) (E & Q1 & Q2 & R). cbn [fst snd] in *. subst v'.
  assert (S1 : binputs b4 b) by (destruct P1, Q1, B2; split; congruence).
  assert (S2 : binputs c4 b) by (destruct P1, Q2, B2; split; congruence).
  destruct v.
  - destruct (R eq_refl) as (R1 & R2 & _).
    set (b5 := lb_with_flags b4 true (lb_upd_stretch b4)). set (c5 := lb_with_flags c4 true (lb_upd_stretch c4)).
    assert (F5 : lb_upd_catenary b5 = true /\ lb_upd_catenary c5 = true) by (split; reflexivity).
    assert (G : forall (d : Loader N) v d', UpdateLoadStretch d = Ok (v, d') -> lb_upd_catenary d' = lb_upd_catenary d).
    { intros d v d' X. unfold UpdateLoadStretch in X. destruct (lb_line d) as [ld|]; cbn [deref obind] in X; [|discriminate X].
      assert (G1 : forall (e : Loader N) s r v e' r', UpdateCreep e s r = Ok (v, (e', r')) -> lb_upd_catenary e' = lb_upd_catenary e).
      { intros e s r v0 e' r' Y. unfold UpdateCreep in Y.
        destruct (co_condition (sr_constraint s)); try (injection Y as _ <- _; reflexivity);
          (destruct (reloaded_stretch _ _ _ _ _ _) as [([z|], st)| |]; cbn [obind] in Y; try discriminate Y; injection Y as _ <- _; reflexivity). }
      assert (G2 : forall (e : Loader N) s r v e' r', UpdateLoad e s r = Ok (v, (e', r')) -> lb_upd_catenary e' = lb_upd_catenary e).
      { intros e s r v0 e' r' Y. unfold UpdateLoad in Y.
        destruct (co_condition (sr_constraint s)); try (injection Y as _ <- _; reflexivity);
          (destruct (reloaded_stretch _ _ _ _ _ _) as [([z|], st)| |]; cbn [obind] in Y; try discriminate Y; injection Y as _ <- _; reflexivity). }
      destruct (UpdateCreep d _ _) as [(v1, (d1, r1))| |] eqn:Y1; cbn [obind] in X; try discriminate X.
      destruct v1; [|injection X as _ <-; apply (G1 _ _ _ _ _ _ Y1)]. cbn [fst snd] in X.
      destruct (UpdateLoad d1 _ _) as [(v2, (d2, r2))| |] eqn:Y2; cbn [obind] in X; try discriminate X.
      injection X as _ <-. cbn [fst]. rewrite (G2 _ _ _ _ _ _ Y2). apply (G1 _ _ _ _ _ _ Y1). }
    assert (J5 : binputs b5 c5) by (destruct S1, S2; split; cbn; congruence).
    pose proof (UpdateLoadStretch_alike b5 c5 J5 R1 R2) as U.
    destruct (UpdateLoadStretch b5) as [(v, b6)| |] eqn:E1, (UpdateLoadStretch c5) as [(v', c6)| |] eqn:E2; cbn [orel obind] in U |- *;
      try contradiction; try exact Logic.I.
    destruct U as (E & T1 & T2 & BS). cbn [fst snd] in *. subst v'. unfold upaired_b. cbn [fst snd].
    split; [reflexivity|]. split; [destruct S1, T1; split; cbn in *; congruence|]. split; [destruct S1, T2; split; cbn in *; congruence|].
    split; [unfold lb_IsUpdated; cbn; rewrite (G _ _ _ E1), (proj1 F5); reflexivity|].
    split; [unfold lb_IsUpdated; cbn; rewrite (G _ _ _ E2), (proj2 F5); reflexivity|]. intros V. exact (BS V).
  - cbn [orel]. unfold upaired_b. cbn [fst snd]. split; [reflexivity|]. split; [exact S1|]. split; [exact S2|].
    split; [reflexivity|]. split; [reflexivity|discriminate].
Qed.

End Loader.
