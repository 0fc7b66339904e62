(** Proofs about the reloader in any arithmetic: its answers follow from the last setters. *)
From Coq Require Import ZArith Bool List.
From Verif Require Import Num ModelBase ModelCatenary SpecCatenary ProofCatenary ModelSolver ProofSolver ModelThermal
  ModelElongation SpecElong ProofElong ProofElongHistory ModelReload SpecReload.
Import ListNotations.
Open Scope num_scope.

Section Reload.
Context {N : Num}.

(** ** Elongation models *)

(** The same inputs, and caches that fit them. *)
Definition mates (m n : ElongModel N) : Prop :=
  tracked m /\ tracked n /\ em_cable m = em_cable n /\ em_stretch m = em_stretch n /\ em_state m = em_state n.

Lemma mates_answers : forall m n, mates m n -> answers_alike m n.
Proof.
  intros m n ((b & F & H) & (b' & F' & H') & E1 & E2 & E3). rewrite <- E1, <- E2, <- E3, F in F'. injection F' as <-.
  destruct (hinv_answers _ _ H) as (A1 & A2 & A3 & A4). destruct (hinv_answers _ _ H') as (B1 & B2 & B3 & B4).
  split; [intros; rewrite A1, B1; reflexivity|]. split; [intros; rewrite A2, B2; reflexivity|].
  split; [intros; rewrite A3, B3; reflexivity|]. rewrite A4, B4. reflexivity.
Qed.

Lemma mates_sym : forall m n, mates m n -> mates n m.
Proof. intros m n (A & B & C & D & E). unfold mates. auto. Qed.
Lemma mates_trans : forall m n p, mates m n -> mates n p -> mates m p.
Proof. intros m n p (A & B & C & D & E) (A' & B' & C' & D' & E'). unfold mates. repeat split; congruence || assumption. Qed.

Lemma kept_mates : forall m r, tracked m -> kept_call m r -> mates m r.
Proof. intros m r T (A & B & C & D). unfold mates. auto. Qed.

Lemma strain_mates : forall m t y x r, tracked m -> em_Strain m t y = Ok (x, r) -> mates m r.
Proof.
  intros m t y x r T E. apply kept_mates; [exact T|]. apply (tracked_query _ (strain_of t y)); [apply strain_of_agree|exact T|].
  change (omap snd (em_Strain m t y) = Ok r). rewrite E. reflexivity.
Qed.
Lemma valid_mates : forall m v r, tracked m -> em_Validate false m = Ok (v, r) -> mates m r.
Proof.
  intros m v r T E. apply kept_mates; [exact T|]. apply tracked_Validate; [exact T|]. rewrite E. reflexivity.
Qed.

(** A pair of answers with equal values and mates. *)
Definition paired {A : Type} (m n : ElongModel N) (p q : A * ElongModel N) : Prop :=
  fst p = fst q /\ mates (snd p) (snd q) /\ mates m (snd p).

Lemma paired_query : forall (A : Type) (f : ElongModel N -> outcome (A * ElongModel N)) m n,
  (forall x y, mates x y -> omap fst (f x) = omap fst (f y)) ->
  (forall x v r, tracked x -> f x = Ok (v, r) -> mates x r) ->
  mates m n -> orel (paired m n) (f m) (f n).
Proof.
  intros A f m n F G M. pose proof (F _ _ M) as E. assert (M' := M). destruct M' as (T1 & T2 & _).
  destruct (f m) as [(v, r)| |] eqn:E1, (f n) as [(v', r')| |] eqn:E2; cbn in E; try discriminate E; cbn; try exact I.
  injection E as <-. split; [reflexivity|]. split; [|apply (G m v r T1 E1)].
  eapply mates_trans; [apply mates_sym, (G m v r T1 E1)|]. eapply mates_trans; [exact M|apply (G n v r' T2 E2)].
Qed.

Lemma strain_paired : forall m n t y, mates m n -> orel (paired m n) (em_Strain m t y) (em_Strain n t y).
Proof.
  intros m n t y M. apply (paired_query _ (fun m => em_Strain m t y)); [|intros; eapply strain_mates; eassumption|exact M].
  intros a b H. apply (mates_answers a b H).
Qed.
Lemma valid_paired : forall m n, mates m n -> orel (paired m n) (em_Validate false m) (em_Validate false n).
Proof.
  intros m n M. apply (paired_query _ (em_Validate false)); [|intros; eapply valid_mates; eassumption|exact M].
  intros a b H. apply (mates_answers a b H).
Qed.

(** Memories. *)
Definition mmates (mem mem' : Models N) : Prop := forall a, mates (mem a) (mem' a).
Lemma mmates_refl : forall mem : Models N, (forall a, tracked (mem a)) -> mmates mem mem.
Proof. intros mem T a. unfold mates. auto. Qed.
Lemma mmates_sym : forall mem mem' : Models N, mmates mem mem' -> mmates mem' mem.
Proof. intros m n H a. apply mates_sym, H. Qed.
Lemma mmates_trans : forall m n p : Models N, mmates m n -> mmates n p -> mmates m p.
Proof. intros m n p H K a. eapply mates_trans; [apply H|apply K]. Qed.
Lemma put_mates : forall (m n : Models N) a x y, mmates m n -> mates x y -> mmates (put m a x) (put n a y).
Proof. intros m n a x y H K b. unfold put. destruct (Z.eqb a b); [exact K|apply H]. Qed.

(** ** The strainer *)
Definition spaired {A : Type} (p q : A * Models N) : Prop := fst p = fst q /\ mmates (snd p) (snd q).

Lemma LengthFinish_paired : forall m n s, mmates m n -> orel spaired (LengthFinish m s) (LengthFinish n s).
Proof.
  intros m n s H. unfold LengthFinish. apply (orel_bind _ _ _ _ eq); [apply orel_eq|]. intros a b <-.
  eapply orel_bind; [apply strain_paired, H|]. intros (x0, ma) (x0', mb) (E & M & _). cbn [fst snd] in E, M. subst x0'.
  apply (orel_bind _ _ _ _ eq); [apply orel_eq|]. intros b c <-.
  eapply orel_bind; [apply strain_paired; apply (put_mates m n a ma mb H M)|].
  intros (x1, mc) (x1', md) (E & M' & _). cbn [fst snd] in E, M'. subst x1'. cbn [orel]. split; [reflexivity|].
  cbn [snd]. apply put_mates; [apply put_mates|]; assumption.
Qed.

(** The memory after a query has the same inputs. *)
Lemma LengthFinish_mates : forall m s v m', (forall a, tracked (m a)) -> LengthFinish m s = Ok (v, m') -> mmates m m'.
Proof.
  intros m s v m' T E. unfold LengthFinish in E.
  destruct (cr_start s) as [a|]; cbn [deref obind] in E; [|discriminate E].
  destruct (em_Strain (m a) _ _) as [(x0, ma)| |] eqn:E0; cbn [obind] in E; try discriminate E.
  destruct (cr_finish s) as [b|]; cbn [deref obind] in E; [|discriminate E].
  pose proof (strain_mates _ _ _ _ _ (T a) E0) as M0.
  assert (M1 : mmates m (put m a ma)).
  { intros c. unfold put. destruct (Z.eqb a c) eqn:Q; [apply Z.eqb_eq in Q; subst c; exact M0|apply mmates_refl, T]. }
  destruct (em_Strain (put m a ma b) _ _) as [(x1, mb)| |] eqn:E1; cbn [obind] in E; try discriminate E. injection E as _ <-.
  assert (T1 : forall c, tracked (put m a ma c)) by (intros c; apply (M1 c)).
  pose proof (strain_mates _ _ _ _ _ (T1 b) E1) as M2.
  eapply mmates_trans; [exact M1|]. intros c. unfold put at 2. destruct (Z.eqb b c) eqn:Q; [|apply mmates_refl, T1].
  apply Z.eqb_eq in Q. subst c. exact M2.
Qed.

(** ** The search *)
Definition smates (s t : Search N) : Prop :=
  mmates (se_models s) (se_models t) /\ twin (se_catenary s) (se_catenary t) /\
  cr_length (se_strainer s) = cr_length (se_strainer t) /\ cr_load_start (se_strainer s) = cr_load_start (se_strainer t) /\
  cr_finish (se_strainer s) = cr_finish (se_strainer t) /\ cr_start (se_strainer s) = cr_start (se_strainer t).

(** After a step the catenaries have the same tension. *)
Definition at_tension (h : N) (s : Search N) : Prop := c3_tension_horizontal (se_catenary s) = h.

Lemma LengthDifference_paired : forall s t h, smates s t ->
  orel (fun p q => fst p = fst q /\ smates (snd p) (snd q) /\ at_tension h (snd p) /\ at_tension h (snd q))
    (LengthDifference s h) (LengthDifference t h).
Proof.
  intros s t h (M & T & L & L0 & F & S). unfold LengthDifference.
  pose proof (set_tension_twin _ _ h T) as TT.
  set (c := c3_set_tension (se_catenary s) h) in *. set (d := c3_set_tension (se_catenary t) h) in *.
  assert (EA : c3_TensionAverage c 100 = c3_TensionAverage d 100) by exact (num_answer _ _ (Q3TensionAverage 100) _ _ TT eq_refl eq_refl).
  assert (EL : c3_Length c = c3_Length d) by exact (num_answer _ _ Q3Length _ _ TT eq_refl eq_refl).
  assert (ES : cr_set_load_finish (se_strainer s) (c3_TensionAverage c 100) =
               cr_set_load_finish (se_strainer t) (c3_TensionAverage d 100)).
  { unfold cr_set_load_finish. rewrite L, L0, F, S, EA. reflexivity. }
  rewrite ES, EL. eapply orel_bind; [apply LengthFinish_paired; exact M|].
  intros (v, m) (v', m') (E & MM). cbn [fst snd] in E, MM. subst v'. cbn [orel fst snd]. split; [reflexivity|].
  split; [|].
  - split; [exact MM|]. split; [|auto]. cbn [se_catenary].
    assert (C1 : c3_current c) by apply TT. assert (C2 : c3_current d) by apply TT.
    eapply twin_trans; [apply (after_twin c true C1)|]. eapply twin_trans; [apply TT|]. apply twin_sym. apply (after_twin d true C2).
  - unfold at_tension. cbn [se_catenary]. destruct (after_inputs c true) as (_ & _ & _ & H1).
    destruct (after_inputs d true) as (_ & _ & _ & H2). split; [rewrite H1|rewrite H2]; reflexivity.
Qed.

Definition lmates (p q : Loop N) : Prop :=
  lp_left p = lp_left q /\ lp_right p = lp_right q /\ lp_current p = lp_current q /\ lp_iter p = lp_iter q /\
  smates (lp_search p) (lp_search q) /\
  c3_tension_horizontal (se_catenary (lp_search p)) = c3_tension_horizontal (se_catenary (lp_search q)).

Lemma pass_paired : forall p q, lmates p q -> orel lmates (reload_pass p) (reload_pass q).
Proof.
  intros p q (A & B & C & D & E & _). unfold reload_pass. rewrite <- A, <- B, <- D.
  eapply orel_bind; [apply LengthDifference_paired; exact E|].
  intros (y, s) (y', s') (Y & M & H1 & H2). cbn [fst snd] in *. subst y'.
  destruct (next_points _ _ _) as [l r]. cbn [orel]. unfold lmates. cbn. unfold at_tension in H1, H2. repeat split; try apply M; congruence.
Qed.

Lemma loop_paired : forall fuel p q, lmates p q -> orel lmates (reload_loop fuel p) (reload_loop fuel q).
Proof.
  induction fuel as [|n IH]; intros p q H; [exact H|]. cbn [reload_loop].
  assert (E : reload_on p = reload_on q).
  { destruct H as (A & B & _ & D & _). unfold reload_on. rewrite A, B, D. reflexivity. }
  rewrite <- E. destruct (reload_on p); [|exact H]. eapply orel_bind; [apply pass_paired, H|]. intros a b K. apply IH, K.
Qed.

Lemma end_paired : forall s t, smates s t -> orel lmates (reload_end s) (reload_end t).
Proof.
  intros s t H. unfold reload_end.
  assert (E : tension_minimum (se_catenary s) = tension_minimum (se_catenary t)) by (apply minimum_same, H).
  rewrite E. eapply orel_bind; [apply LengthDifference_paired; exact H|].
  intros (y, s1) (y', t1) (Y & M & _). cbn [fst snd] in *. subst y'.
  eapply orel_bind; [apply LengthDifference_paired; exact M|].
  intros (z, s2) (z', t2) (Z & M2 & H1 & H2). cbn [fst snd] in *. subst z'.
  apply loop_paired. unfold lmates, at_tension in *. cbn. repeat split; try apply M2; congruence.
Qed.

(** ** The reloader *)
Definition rkeys (r : CatReloader N) := (rl_catenary r, rl_reference r, rl_reloaded r, rl_weight r).

(** Equal answers, results that answer alike, mates in the memory. *)
Definition rpaired (p q : bool * (Models N * CatReloader N)) : Prop :=
  fst p = fst q /\ mmates (fst (snd p)) (fst (snd q)) /\ rkeys (snd (snd p)) = rkeys (snd (snd q)) /\
  rl_updated (snd (snd p)) = rl_updated (snd (snd q)) /\ twin_h (rl_result (snd (snd p))) (rl_result (snd (snd q))).

Variables (cats : Cats N) (weights : Weights N).

Lemma start_current : forall c w, c3_current (reloaded_start (N := N) c w).
Proof. intros c w U. discriminate U. Qed.

Lemma Solve_paired : forall m n r r', mmates m n -> rkeys r = rkeys r' ->
  orel (fun p q => rpaired p q /\ rkeys (snd (snd p)) = rkeys r) (SolveReloaded cats weights m r) (SolveReloaded cats weights n r').
Proof.
  intros m n r r' M K. unfold rkeys in K. injection K as K1 K2 K3 K4. unfold SolveReloaded. rewrite <- K1, <- K2, <- K3, <- K4.
  apply (orel_bind _ _ _ _ eq); [apply orel_eq|]. intros a b <-.
  apply (orel_bind _ _ _ _ eq); [apply orel_eq|]. intros w b <-.
  eapply orel_bind.
  - apply end_paired with (s := mkSearch m (reloaded_start (cats a) (weights w)) (strainer_start (rl_strainer r) (cats a) (rl_reference r) (rl_reloaded r)))
      (t := mkSearch n (reloaded_start (cats a) (weights w)) (strainer_start (rl_strainer r') (cats a) (rl_reference r) (rl_reloaded r))).
    unfold smates. cbn. split; [exact M|]. split; [|auto].
    split; [apply start_current|]. split; [apply start_current|auto].
  - intros p q (A & B & C & D & (E1 & E2 & E3) & G). cbn [orel]. unfold rpaired, rkeys. cbn.
    unfold reload_success. rewrite C, D. split; [|reflexivity].
    split; [reflexivity|]. split; [exact E1|]. split; [reflexivity|]. split; [reflexivity|]. split; [exact E2|exact G].
Qed.

Lemma Update_paired : forall m n r r', mmates m n -> rkeys r = rkeys r' ->
  rl_updated r = false -> rl_updated r' = false ->
  orel (fun p q => rpaired p q /\ rkeys (snd (snd p)) = rkeys r /\ rl_updated (snd (snd p)) = fst p)
    (rl_Update cats weights m r) (rl_Update cats weights n r').
Proof.
  intros m n r r' M K U U'. unfold rl_Update. rewrite U, U'. eapply orel_bind; [apply Solve_paired; eassumption|].
  intros (b, (m1, r1)) (b', (n1, r1')) ((E & A & B & _ & C) & D). cbn [fst snd] in *. subst b'. cbn [orel].
  unfold rpaired, rkeys in *. cbn. split; [|split; [exact D|reflexivity]].
  split; [reflexivity|]. split; [exact A|]. split; [exact B|]. split; [reflexivity|exact C].
Qed.

Lemma mates_after : forall m s h y s', (forall a, tracked (m a)) -> se_models s = m -> LengthDifference s h = Ok (y, s') -> mmates m (se_models s').
Proof.
  intros m s h y s' T <- E. unfold LengthDifference in E.
  destruct (LengthFinish _ _) as [(v, m')| |] eqn:L; cbn [obind] in E; try discriminate E. injection E as _ <-.
  exact (LengthFinish_mates _ _ _ _ T L).
Qed.
Lemma mmates_tracked : forall m n : Models N, mmates m n -> forall a, tracked (n a).
Proof. intros m n H a. apply (H a). Qed.

Lemma loop_mates : forall fuel p q m, mmates m (se_models (lp_search p)) -> reload_loop fuel p = Ok q -> mmates m (se_models (lp_search q)).
Proof.
  induction fuel as [|n IH]; intros p q m H E; cbn [reload_loop] in E; [injection E as <-; exact H|].
  destruct (reload_on p); [|injection E as <-; exact H]. unfold reload_pass in E.
  destruct (LengthDifference _ _) as [(y, s)| |] eqn:L; cbn [obind] in E; try discriminate E.
  destruct (next_points _ _ _) as [l r]. cbn [obind] in E. eapply IH; [|exact E]. cbn [lp_search].
  eapply mmates_trans; [exact H|]. eapply mates_after; [apply (mmates_tracked _ _ H)|reflexivity|exact L].
Qed.

Lemma end_mates : forall s p, (forall a, tracked (se_models s a)) -> reload_end s = Ok p -> mmates (se_models s) (se_models (lp_search p)).
Proof.
  intros s p T E. unfold reload_end in E.
  destruct (LengthDifference s _) as [(y, s1)| |] eqn:L1; cbn [obind] in E; try discriminate E.
  destruct (LengthDifference s1 _) as [(z, s2)| |] eqn:L2; cbn [obind] in E; try discriminate E.
  assert (M1 := mates_after _ _ _ _ _ T eq_refl L1).
  assert (M2 := mates_after _ _ _ _ _ (mmates_tracked _ _ M1) eq_refl L2).
  eapply loop_mates; [|exact E]. cbn [lp_search]. eapply mmates_trans; eassumption.
Qed.

Lemma Update_mates : forall m r b st, (forall a, tracked (m a)) -> rl_Update cats weights m r = Ok (b, st) -> mmates m (fst st).
Proof.
  intros m r b st T E. unfold rl_Update in E. destruct (rl_updated r); [injection E as _ <-; apply mmates_refl, T|].
  unfold SolveReloaded in E. destruct (rl_catenary r) as [a|]; cbn [deref obind] in E; [|discriminate E].
  destruct (rl_weight r) as [w|]; cbn [deref obind] in E; [|discriminate E].
  destruct (reload_end _) as [p| |] eqn:P; cbn [obind] in E; try discriminate E. injection E as _ <-. cbn [fst].
  refine (end_mates _ _ _ P). exact T.
Qed.

(** ** Histories *)

(** The reloader is fresh apart from a result that was computed on a like memory. *)
Definition fresh_of (r : CatReloader N) : CatReloader N := rl_fresh (rl_catenary r) (rl_reference r) (rl_reloaded r) (rl_weight r).
Definition rinv (mem0 : Models N) (st : Models N * CatReloader N) : Prop :=
  mmates mem0 (fst st) /\
  (rl_updated (snd st) = true -> exists m r, rl_Update cats weights mem0 (fresh_of (snd st)) = Ok (true, (m, r)) /\
     mmates mem0 m /\ twin_h (rl_result (snd st)) (rl_result r)).

Lemma fresh_keys : forall r : CatReloader N, rkeys (fresh_of r) = rkeys r /\ rl_updated (fresh_of r) = false.
Proof. intros r. split; reflexivity. Qed.
Lemma fresh_of_keys : forall r s : CatReloader N, rkeys r = rkeys s -> fresh_of r = fresh_of s.
Proof. intros r s K. unfold rkeys in K. unfold fresh_of. injection K as -> -> -> ->. reflexivity. Qed.

(** What a used and a fresh reloader have in common after Update. *)
Definition upaired (mem0 : Models N) (r0 : CatReloader N) (p q : bool * (Models N * CatReloader N)) : Prop :=
  fst p = fst q /\ rinv mem0 (snd p) /\ rkeys (snd (snd p)) = rkeys r0 /\ rkeys (snd (snd q)) = rkeys r0 /\
  mmates mem0 (fst (snd q)) /\
  (fst p = true -> twin_h (rl_result (snd (snd p))) (rl_result (snd (snd q)))).

Lemma mmates_self : forall m n : Models N, mmates m n -> mmates m m.
Proof. intros m n H. apply mmates_refl. intros a. apply (H a). Qed.

Lemma Update_fresh : forall mem0 m r, rinv mem0 (m, r) ->
  orel (upaired mem0 r) (rl_Update cats weights m r) (rl_Update cats weights mem0 (fresh_of r)).
Proof.
  intros mem0 m r (M & I). cbn [fst snd] in *.
  assert (T0 : forall a, tracked (mem0 a)) by (intros a; apply (M a)).
  destruct (rl_updated r) eqn:U.
  - destruct (I eq_refl) as (m1 & r1 & E & M1 & TW). rewrite E. unfold rl_Update at 1. rewrite U. cbn [orel].
    unfold upaired. cbn [fst snd]. split; [reflexivity|].
    split; [split; [exact M|]; intros _; exists m1, r1; cbn [snd]; auto|]. split; [reflexivity|].
    split; [|auto].
    pose proof (Update_paired mem0 mem0 (fresh_of r) (fresh_of r) (mmates_refl _ T0) eq_refl eq_refl eq_refl) as Q.
    rewrite E in Q. destruct Q as (_ & K & _). exact K.
  - pose proof (Update_paired m mem0 r (fresh_of r) (mmates_sym _ _ M) eq_refl U eq_refl) as Q.
    destruct (rl_Update cats weights m r) as [(b, (m1, r1))| |] eqn:E1,
      (rl_Update cats weights mem0 (fresh_of r)) as [(b', (m2, r2))| |] eqn:E2; cbn [orel] in Q |- *; try contradiction; try exact Logic.I.
    destruct Q as ((A & B & C & D & TW) & K & V). cbn [fst snd] in *. subst b'.
    assert (M2 : mmates mem0 m2) by exact (Update_mates _ _ _ _ T0 E2).
    unfold upaired. cbn [fst snd]. split; [reflexivity|]. split.
    + split; cbn [fst snd].
      * eapply mmates_trans; [exact M2|]. apply mmates_sym, B.
      * rewrite V. intros ->. exists m2, r2. rewrite (fresh_of_keys r1 r K), E2. auto.
    + split; [exact K|]. split; [congruence|]. split; [exact M2|auto].
Qed.

Lemma set_rinv : forall mem0 m r r', rinv mem0 (m, r) -> rl_updated r' = false -> rinv mem0 (m, r').
Proof. intros mem0 m r r' (M & _) U. split; [exact M|]. cbn [snd]. rewrite U. discriminate. Qed.

Lemma rinv_memory : forall mem0 m m' r, rinv mem0 (m, r) -> mmates mem0 m' -> rinv mem0 (m', r).
Proof. intros mem0 m m' r (M & I) M'. split; assumption. Qed.

(** A model of the reloader in Validate. *)
Lemma model_valid_paired : forall m n p, mmates m n ->
  orel (fun p q => fst p = fst q /\ mmates (snd p) (snd q) /\ mmates m (snd p)) (model_valid false m p) (model_valid false n p).
Proof.
  intros m n [a|] M; cbn [model_valid]; [|cbn; split; [reflexivity|split; [exact M|apply (mmates_self m n M)]]].
  eapply orel_bind; [apply valid_paired, M|]. intros (v, x) (v', y) (E & P & Q). cbn [fst snd orel] in *.
  split; [exact E|]. split; [apply put_mates; assumption|].
  intros c. unfold put. destruct (Z.eqb a c) eqn:W; [apply Z.eqb_eq in W; subst c; exact Q|apply (mmates_self m n M)].
Qed.

Lemma Validate_fresh : forall mem0 m r, rinv mem0 (m, r) ->
  orel (fun p q => fst p = fst q /\ rinv mem0 (snd p) /\ rkeys (snd (snd p)) = rkeys r)
    (rl_Validate cats weights false m r) (rl_Validate cats weights false mem0 (fresh_of r)).
Proof.
  intros mem0 m r H. unfold rl_Validate. cbn [fresh_of rl_fresh rl_catenary rl_reference rl_reloaded rl_weight rl_set_weight rl_set_reloaded rl_set_reference rl_set_catenary].
  assert (M := proj1 H). cbn [fst] in M.
  eapply orel_bind; [apply model_valid_paired, mmates_sym, M|]. intros (v1, m1) (v1', n1) (E1 & P1 & Q1). cbn [fst snd] in *. subst v1'.
  eapply orel_bind; [apply model_valid_paired, P1|]. intros (v2, m2) (v2', n2) (E2 & P2 & Q2). cbn [fst snd] in *. subst v2'.
  assert (Mn : mmates mem0 m2) by (eapply mmates_trans; [exact M|]; eapply mmates_trans; eassumption).
  assert (H2 := rinv_memory mem0 m m2 r H Mn).
  destruct (_ && _ && _ && _).
  - pose proof (Update_fresh mem0 m2 r H2) as U.
    assert (V : orel (fun p q => fst p = fst q) (rl_Update cats weights mem0 (fresh_of r)) (rl_Update cats weights n2 (fresh_of r))).
    { eapply orel_mono; [apply Update_paired; try reflexivity|].
      - eapply mmates_trans; [exact Mn|exact P2].
      - intros p q ((A & _) & _). exact A. }
    change (mkCatReloader (rl_catenary r) (@Catenary3d_default N) false (rl_reference r) (rl_reloaded r) (@Strainer_new N) (rl_weight r))
      with (fresh_of r).
    destruct (rl_Update cats weights m2 r) as [(b, st)| |], (rl_Update cats weights mem0 (fresh_of r)) as [(b', st')| |],
      (rl_Update cats weights n2 (fresh_of r)) as [(b'', st'')| |]; cbn [orel] in *; try contradiction; try exact Logic.I.
    destruct U as (A & B & C & _). split; [congruence|]. auto.
  - cbn [orel fst snd]. auto.
Qed.

Lemma Catenary_fresh : forall mem0 m r q, rinv mem0 (m, r) ->
  omap (fun p => c3_answer (fst p) q) (rl_CatenaryReloaded cats weights m r) =
  omap (fun p => c3_answer (fst p) q) (rl_CatenaryReloaded cats weights mem0 (fresh_of r)).
Proof.
  intros mem0 m r q H. unfold rl_CatenaryReloaded. pose proof (Update_fresh mem0 m r H) as U.
  destruct (rl_Update cats weights m r) as [(b, st)| |], (rl_Update cats weights mem0 (fresh_of r)) as [(b', st')| |];
    cbn [orel obind omap] in *; try contradiction; try reflexivity.
  destruct U as (E & _ & _ & _ & _ & T). cbn [fst snd] in *. subst b'. destruct b; [|reflexivity].
  rewrite (twin_answer _ _ q (T eq_refl)). reflexivity.
Qed.

Lemma Tension_fresh : forall mem0 m r, rinv mem0 (m, r) ->
  omap fst (rl_TensionHorizontal cats weights m r) = omap fst (rl_TensionHorizontal cats weights mem0 (fresh_of r)).
Proof.
  intros mem0 m r H. unfold rl_TensionHorizontal. pose proof (Update_fresh mem0 m r H) as U.
  destruct (rl_Update cats weights m r) as [(b, st)| |], (rl_Update cats weights mem0 (fresh_of r)) as [(b', st')| |];
    cbn [orel obind omap] in *; try contradiction; try reflexivity.
  destruct U as (E & _ & _ & _ & _ & T). cbn [fst snd] in *. subst b'. destruct b; [|reflexivity].
  rewrite (proj2 (T eq_refl)). reflexivity.
Qed.

Lemma Unloaded_fresh : forall mem0 m r, rinv mem0 (m, r) ->
  orel (fun p q => fst p = fst q /\ rinv mem0 (snd p) /\ rkeys (snd (snd p)) = rkeys r)
    (rl_LengthUnloaded cats weights m r) (rl_LengthUnloaded cats weights mem0 (fresh_of r)).
Proof.
  intros mem0 m r H. unfold rl_LengthUnloaded. eapply orel_bind; [apply Update_fresh, H|].
  intros (b, (m1, r1)) (b', (m2, r2)) (E & I1 & K1 & K2 & M2 & _). cbn [fst snd] in *. subst b'.
  destruct b; [|cbn [orel fst snd]; auto].
  assert (K := eq_trans K1 (eq_sym K2)). unfold rkeys in K. injection K as E1 E2 E3 E4. rewrite <- E1, <- E2.
  apply (orel_bind _ _ _ _ eq); [apply orel_eq|]. intros u u' <-.
  assert (M1 := proj1 I1). cbn [fst] in M1.
  unfold un_LengthUnloaded.
  set (s := un_strainer (un_set_unloaded (un_set_reference u (rl_reference r1)) (rl_reference r1))).
  assert (P := LengthFinish_paired m1 m2 s (mmates_trans _ _ _ (mmates_sym _ _ M1) M2)).
  destruct (LengthFinish m1 s) as [(v, m3)| |] eqn:L1, (LengthFinish m2 s) as [(v', m4)| |]; cbn [orel obind] in P |- *; try contradiction; try exact Logic.I.
  destruct P as (Ev & _). cbn [fst snd] in *. split; [exact Ev|]. split; [|exact K1].
  eapply rinv_memory; [exact I1|]. eapply mmates_trans; [exact M1|].
  eapply LengthFinish_mates; [|exact L1]. apply (mmates_tracked _ _ M1).
Qed.

Lemma rinv_alike : forall mem0 m r, rinv mem0 (m, r) -> rl_alike cats weights (m, r) (mem0, fresh_of r).
Proof.
  intros mem0 m r H. unfold rl_alike. cbn [fst snd]. split; [|split; [|split]].
  - eapply orel_fst; [apply Validate_fresh, H|]. intros p q (E & _). exact E.
  - apply Tension_fresh, H.
  - eapply orel_fst; [apply Unloaded_fresh, H|]. intros p q (E & _). exact E.
  - intros q. apply Catenary_fresh, H.
Qed.

Lemma call_rinv : forall mem0 st k st', rinv mem0 st -> rl_quiet k = true -> rl_call cats weights st k = Ok st' ->
  rinv mem0 st' /\
  rl_catenary (snd st') = match pickR_catenary k with Some p => p | None => rl_catenary (snd st) end /\
  rl_reference (snd st') = match pickR_reference k with Some p => p | None => rl_reference (snd st) end /\
  rl_reloaded (snd st') = match pickR_reloaded k with Some p => p | None => rl_reloaded (snd st) end /\
  rl_weight (snd st') = match pickR_weight k with Some p => p | None => rl_weight (snd st) end.
Proof.
  intros mem0 (m, r) k st' H Q E.
  assert (Same : rinv mem0 st' -> rkeys (snd st') = rkeys r -> rinv mem0 st' /\ rl_catenary (snd st') = rl_catenary r /\
    rl_reference (snd st') = rl_reference r /\ rl_reloaded (snd st') = rl_reloaded r /\ rl_weight (snd st') = rl_weight r).
  { intros I K. unfold rkeys in K. injection K as K1 K2 K3 K4. auto. }
  destruct k; cbn [rl_call] in E; cbn [pickR_catenary pickR_reference pickR_reloaded pickR_weight];
    try (injection E as <-; cbn; split; [eapply set_rinv; [exact H|reflexivity]|auto]; fail).
  - apply Same; unfold rl_CatenaryReloaded in E; pose proof (Update_fresh mem0 m r H) as U;
      destruct (rl_Update cats weights m r) as [(b, st)| |]; cbn [obind omap] in E; try discriminate E; injection E as <-;
      destruct (rl_Update cats weights mem0 (fresh_of r)) as [(b', st2)| |]; cbn [orel] in U; try contradiction; apply U.
  - apply Same; pose proof (Unloaded_fresh mem0 m r H) as U;
      destruct (rl_LengthUnloaded cats weights m r) as [(b, st)| |]; cbn [obind omap] in E; try discriminate E; injection E as <-;
      destruct (rl_LengthUnloaded cats weights mem0 (fresh_of r)) as [(b', st2)| |]; cbn [orel] in U; try contradiction; apply U.
  - apply Same; unfold rl_TensionHorizontal in E; pose proof (Update_fresh mem0 m r H) as U;
      destruct (rl_Update cats weights m r) as [(b, st)| |]; cbn [obind omap] in E; try discriminate E; injection E as <-;
      destruct (rl_Update cats weights mem0 (fresh_of r)) as [(b', st2)| |]; cbn [orel] in U; try contradiction; apply U.
  - destruct warn; [discriminate Q|].
    apply Same; pose proof (Validate_fresh mem0 m r H) as U;
      destruct (rl_Validate cats weights false m r) as [(b, st)| |]; cbn [obind omap] in E; try discriminate E; injection E as <-;
      destruct (rl_Validate cats weights false mem0 (fresh_of r)) as [(b', st2)| |]; cbn [orel] in U; try contradiction; apply U.
Qed.

Lemma run_rinv : forall ks mem0 st st', rinv mem0 st -> forallb rl_quiet ks = true -> rl_run cats weights st ks = Ok st' ->
  rinv mem0 st' /\ fresh_of (snd st') = rl_fresh (last_of pickR_catenary ks (rl_catenary (snd st)))
    (last_of pickR_reference ks (rl_reference (snd st))) (last_of pickR_reloaded ks (rl_reloaded (snd st)))
    (last_of pickR_weight ks (rl_weight (snd st))).
Proof.
  induction ks as [|k ks IH]; intros mem0 st st' H Q E; cbn [rl_run] in E.
  { injection E as <-. split; [exact H|reflexivity]. }
  cbn [forallb] in Q. apply andb_true_iff in Q. destruct Q as (Q1 & Q2).
  destruct (rl_call cats weights st k) as [st1| |] eqn:C; cbn [obind] in E; try discriminate E.
  destruct (call_rinv mem0 st k st1 H Q1 C) as (H1 & K1 & K2 & K3 & K4).
  destruct (IH mem0 st1 st' H1 Q2 E) as (H2 & F). split; [exact H2|]. rewrite F. cbn [last_of].
  rewrite K1, K2, K3, K4. reflexivity.
Qed.

End Reload.

Theorem reload_history : forall (N : Num) (cats : Cats N) (weights : Weights N) ks mem st, tidy_models mem ->
  forallb rl_quiet ks = true -> rl_run cats weights (mem, CatReloader_new) ks = Ok st ->
  rl_alike cats weights st (mem, rl_fresh (last_of pickR_catenary ks None) (last_of pickR_reference ks None)
                                   (last_of pickR_reloaded ks None) (last_of pickR_weight ks None)) /\
  forall a, answers_alike (mem a) (fst st a).
Proof.
  intros N cats weights ks mem st D Q E.
  assert (T : forall a, tracked (mem a)).
  { intros a. destruct (D a) as (cs & D1 & D2). apply (run_tracked cs true ElongModel_new (mem a) tracked_new (fun _ => eq_refl) D1 D2). }
  assert (I : rinv cats weights mem (mem, CatReloader_new)) by (split; [apply mmates_refl, T|discriminate]).
  destruct (run_rinv cats weights ks mem _ st I Q E) as (H & F). destruct st as (m, r).
  cbn [snd CatReloader_new rl_catenary rl_reference rl_reloaded rl_weight] in F.
  split; [rewrite <- F; apply rinv_alike, H|].
  intros a. apply mates_answers. apply H.
Qed.
