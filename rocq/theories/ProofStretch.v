(** Proofs about the stretch states of line cables. *)
From Coq Require Import ZArith Bool List Lia.
From Verif Require Import Num ModelBase ModelLine ModelCable ModelCatenary SpecCatenary ProofCatenary ModelSolver ProofSolver
  ModelLoad ModelThermal ModelElongation SpecElong ProofElong ProofElongHistory ModelReload SpecReload ProofReload
  ModelSagtension SpecSagtension ProofSagtension ProofSagHistory ProofSagUnload SpecStretch.
Import ListNotations.
Open Scope num_scope.

Section Stretch.
Context {N : Num}.
Implicit Types b : Loader N.

(** A new reloader from the constraint model. *)
Definition rnew (a : Z) : CatReloader N :=
  mkCatReloader (Some 0%Z) Catenary3d_default false (Some 0%Z) (Some a) Strainer_new (Some 0%Z).

(** The memory [m], with the constraint model stretched by [x] whatever it was before. *)
Lemma stretch_again : forall (m n : Models N) x y, mmates (stretch_by m x) n -> (forall a, tracked (m a)) ->
  mmates (stretch_by m y) (stretch_by n y).
Proof.
  intros m n x y H T a. specialize (H a). unfold stretch_by, put in *. destruct (Z.eqb at_constraint a) eqn:E; [|exact H].
  apply Z.eqb_eq in E. subst a. destruct H as (A & B & C & D & F). cbn in C, D, F.
  unfold mates. cbn. split; [apply tracked_set_stretch, T|]. split; [apply tracked_set_stretch, B|].
  split; [exact C|]. split; [|exact F]. unfold ss_with_load at 1 2. rewrite <- D. reflexivity.
Qed.

Lemma gap_fresh : forall c w (m n : Models N) r a x0 x y st, mmates (stretch_by m x0) n -> (forall a, tracked (m a)) ->
  rkeys r = rkeys (rnew a) -> stretch_gap c w n r x = Ok (y, st) ->
  (exists t, omap fst (average_reloaded c w (stretch_by m x) (rnew a)) = Ok t /\ y = t - x) /\
  mmates (stretch_by m x) (fst st) /\ rkeys (snd st) = rkeys (rnew a).
Proof.
  intros c w m n r a x0 x y st M T K E. unfold stretch_gap in E.
  pose proof (stretch_again m n x0 x M T) as M1.
  assert (RA : ralike (rnew a) (rl_set_reference r (Some at_constraint))).
  { unfold rkeys in K. cbn in K. injection K as K1 K2 K3 K4. split; [unfold rkeys; cbn; rewrite K1, K3, K4; reflexivity|].
    split; [reflexivity|]. cbn. discriminate. }
  pose proof (average_reloaded_alike c w _ _ _ _ M1 RA) as Q.
  destruct (average_reloaded c w (stretch_by m x) (rnew a)) as [(t, st1)| |],
           (average_reloaded c w (stretch_by n x) (rl_set_reference r (Some at_constraint))) as [(t2, st2)| |];
    cbn [orel obind] in Q, E; try contradiction; try discriminate E.
  injection E as <- <-. destruct Q as (A & B & C & (D & _) & F). cbn [fst snd] in *. subst t2.
  split; [exists t; split; reflexivity|]. split; [eapply mmates_trans; [exact C|exact B]|]. congruence.
Qed.

(** The state of the search. *)
Definition searched (c : Catenary3d N) (w : Vector3d N) (m : Models N) (a : Z) (s : Stretch N) : Prop :=
  (exists x0, mmates (stretch_by m x0) (sx_models s)) /\ rkeys (sx_reloader s) = rkeys (rnew a) /\
  (sx_current s = Point2d_default \/
   mmates (stretch_by m (p2x (sx_current s))) (sx_models s) /\
   exists t, omap fst (average_reloaded c w (stretch_by m (p2x (sx_current s))) (rnew a)) = Ok t /\
             p2y (sx_current s) = t - p2x (sx_current s)).

Lemma pass_searched : forall c w m a s s1, (forall a, tracked (m a)) -> searched c w m a s -> stretch_pass c w s = Ok s1 ->
  searched c w m a s1.
Proof.
  intros c w m a s s1 T ((x0 & M) & K & _) E. unfold stretch_pass in E.
  set (x := p2x (sx_left s) + _) in E.
  destruct (stretch_gap c w (sx_models s) (sx_reloader s) x) as [(y, st)| |] eqn:G; cbn [obind] in E; try discriminate E.
  destruct (gap_fresh c w m _ _ a x0 x y st M T K G) as (V & M1 & K1).
  destruct (next_stretch _ _ _) as [l r]. injection E as <-. unfold searched. cbn.
  split; [exists x; exact M1|]. split; [exact K1|]. right. split; [exact M1|exact V].
Qed.

Lemma loop_searched : forall c w m a fuel s s1, (forall a, tracked (m a)) -> searched c w m a s ->
  stretch_loop fuel c w s = Ok s1 -> searched c w m a s1 /\
  ((sx_iter s + Z.of_nat fuel = 101)%Z -> (sx_iter s1 <? 100)%Z = true ->
   (flit 1 (-2) <? fabs (p2y (sx_current s1) - #0)) = false).
Proof.
  intros c w m a. induction fuel as [|n IH]; intros s s1 T H E; cbn [stretch_loop] in E.
  - injection E as <-. split; [exact H|]. intros X Y. apply Z.ltb_lt in Y. cbn in X. exfalso. revert X Y. generalize (sx_iter s). intros; Lia.lia.
  - destruct (stretch_on s) eqn:O.
    + destruct (stretch_pass c w s) as [s2| |] eqn:P; cbn [obind] in E; try discriminate E.
      destruct (IH s2 s1 T (pass_searched c w m a s s2 T H P) E) as (A & B). split; [exact A|].
      intros X. apply B. assert (I : sx_iter s2 = (sx_iter s + 1)%Z).
      { unfold stretch_pass in P. destruct (stretch_gap _ _ _ _ _) as [(y, st)| |]; cbn [obind] in P; try discriminate P.
        destruct (next_stretch _ _ _) as [l r]. injection P as <-. reflexivity. }
      rewrite I. Lia.lia.
    + injection E as <-. split; [exact H|]. intros _ Y. unfold stretch_on in O. rewrite Y, andb_true_r in O. exact O.
Qed.

(** The arithmetic lets the search start. *)
Definition starts : Prop := (flit (n := N) 1 (-2) <? fabs (ferr - #0)) = true.

Lemma solve_fresh : forall c w x (m : Models N) a mem, starts -> (forall a, tracked (m a)) ->
  ss_load (em_stretch (m at_constraint)) = #0 ->
  SolveStretch c w x m a = Ok (true, mem) ->
  exists v t, mmates (stretch_by m v) mem /\ omap fst (average_reloaded c w (stretch_by m v) (rnew a)) = Ok t /\ matches t v.
Proof.
  intros c w x m a mem ST T Z0 E. unfold SolveStretch in E.
  set (r := rl_set_weight (rl_set_reloaded reloader_from (Some a)) (Some 0%Z)) in E.
  assert (RR : ralike r r) by (split; [reflexivity|]; split; [reflexivity|]; cbn; discriminate).
  pose proof (average_reloaded_alike c w m m r r (mmates_refl m T) RR) as Q.
  destruct (average_reloaded c w m r) as [(t, st)| |]; cbn [orel obind] in Q, E; try discriminate E.
  destruct Q as (_ & _ & M1 & _ & K1). cbn [fst snd] in M1, K1.
  destruct x as [x| |]; cbn [obind] in E; try discriminate E.
  assert (M0 : mmates (stretch_by m #0) (fst st)).
  { intros b. specialize (M1 b). unfold stretch_by, put. destruct (Z.eqb at_constraint b) eqn:B; [|exact M1].
    apply Z.eqb_eq in B. subst b. destruct M1 as (A1 & A2 & A3 & A4 & A5). unfold mates. cbn.
    split; [apply tracked_set_stretch, T|]. split; [exact A2|]. split; [exact A3|]. split; [|exact A5].
    rewrite <- A4. destruct (em_stretch (m at_constraint)) as [u v z]. cbn in Z0 |- *. unfold ss_with_load. cbn. rewrite Z0. reflexivity. }
  assert (K : rkeys (snd st) = rkeys (rnew a)) by (rewrite K1; reflexivity).
  destruct (stretch_gap c w (fst st) (snd st) x) as [(y, st1)| |] eqn:G; cbn [obind] in E; try discriminate E.
  destruct (gap_fresh c w m _ _ a #0 x y st1 M0 T K G) as (_ & M2 & K2).
  set (s := mkStretch _ _ _ _ _ _) in E.
  destruct (stretch_loop (Z.to_nat 100) c w s) as [s1| |] eqn:L; cbn [obind] in E; try discriminate E.
  assert (S0 : searched c w m a s).
  { unfold searched. cbn. split; [exists x; exact M2|]. split; [exact K2|]. left. reflexivity. }
  destruct (loop_searched c w m a _ s s1 T S0 L) as ((_ & _ & D) & Y).
  destruct (sx_iter s1 <? 100)%Z eqn:I; [|discriminate E]. injection E as <-.
  specialize (Y eq_refl eq_refl). destruct D as [D|(M3 & u & F & D)].
  - exfalso. rewrite D in Y. cbn in Y. unfold starts in ST. unfold ferr in *. congruence.
  - exists (p2x (sx_current s1)), u. split; [exact M3|]. split; [exact F|]. unfold matches. rewrite <- D. exact Y.
Qed.

(** ** A reloader that validates first *)
Lemma validated_fresh : forall c w (m n : Models N) r a st t st1, mmates m n -> rkeys r = rkeys (rnew a) -> rl_updated r = false ->
  rl_Validate (fun _ => c) (fun _ => w) false n r = Ok (true, st) -> average_reloaded c w (fst st) (snd st) = Ok (t, st1) ->
  omap fst (average_reloaded c w m (rnew a)) = Ok t /\ mmates m (fst st1) /\ rkeys (snd st1) = rkeys (rnew a).
Proof.
  intros c w m n r a st t st1 M K U V E. unfold rl_Validate in V.
  assert (Tn : forall b : Z, mates (n b) (n b)) by (intros b; apply (mates_trans _ (m b)); [apply mates_sym|]; apply M).
  pose proof (model_valid_paired n n (rl_reference r) Tn) as Q1.
  destruct (model_valid false n (rl_reference r)) as [(v1, n1)| |]; cbn [orel obind] in Q1, V; try discriminate V.
  destruct Q1 as (_ & P1 & Q1). cbn [fst snd] in P1, Q1.
  pose proof (model_valid_paired n1 n1 (rl_reloaded r) P1) as Q2.
  destruct (model_valid false n1 (rl_reloaded r)) as [(v2, n2)| |]; cbn [orel obind] in Q2, V; try discriminate V.
  destruct Q2 as (_ & P2 & Q2). cbn [fst snd] in P2, Q2.
  destruct (_ && _ && _ && _); [|discriminate V].
  assert (M2 : mmates m n2) by (eapply mmates_trans; [exact M|]; eapply mmates_trans; [exact Q1|exact Q2]).
  assert (RA : ralike (rnew a) r) by (split; [symmetry; exact K|]; split; [symmetry; exact U|]; cbn; discriminate).
  pose proof (Update_alike (fun _ => c) (fun _ => w) m n2 (rnew a) r M2 RA) as Q3. rewrite V in Q3.
  destruct (rl_Update (fun _ => c) (fun _ => w) m (rnew a)) as [(b, st2)| |] eqn:V2; cbn [orel] in Q3; try contradiction.
  destruct Q3 as ((A1 & A2 & A3 & (A4 & A5 & _) & A6) & TW & UP). cbn [fst snd] in *. subst b.
  destruct st as [n3 r3], st2 as [m3 s3]. cbn [fst snd] in *.
  unfold average_reloaded, rl_CatenaryReloaded, rl_Update in E. rewrite <- A5, UP in E. cbn [obind fst snd] in E. injection E as <- <-.
  split; [|split].
  - unfold average_reloaded, rl_CatenaryReloaded. rewrite V2. cbn [obind omap fst snd]. f_equal. apply average_same, TW. reflexivity.
  - cbn. eapply mmates_trans; [exact A3|exact A2].
  - cbn. congruence.
Qed.

Lemma reloaded_stretch_fresh : forall c s weather a (m n : Models N) r v st, mmates m n -> rl_catenary r = Some 0%Z ->
  rl_reference r = Some at_constraint -> reloaded_stretch c s weather a n r = Ok (Some v, st) ->
  exists w, unit_load s weather = Ok w /\ omap fst (average_reloaded c w m (rnew a)) = Ok (ss_load v) /\ mmates m (fst st) /\
    rl_catenary (snd st) = Some 0%Z /\ rl_reference (snd st) = Some at_constraint /\
    ss_temperature v = st_temperature (em_state (m a)) /\ ss_type v = st_type (em_state (m a)).
Proof.
  intros c s weather a m n r v st M K1 K2 E. unfold reloaded_stretch in E.
  destruct (unit_load s weather) as [w| |]; cbn [obind] in E; try discriminate E. exists w. split; [reflexivity|].
  set (r1 := rl_set_weight (rl_set_reloaded r (Some a)) (Some 0%Z)) in E.
  destruct (rl_Validate (fun _ => c) (fun _ => w) false n r1) as [(ok, st0)| |] eqn:V; cbn [obind] in E; try discriminate E.
  destruct ok; [|discriminate E].
  destruct (average_reloaded c w (fst st0) (snd st0)) as [(t, st1)| |] eqn:A; cbn [obind] in E; try discriminate E.
  injection E as <- <-.
  assert (K : rkeys r1 = rkeys (rnew a)) by (unfold rkeys; cbn; rewrite K1, K2; reflexivity).
  destruct (validated_fresh c w m n r1 a st0 t st1 M K eq_refl V A) as (B & C & D).
  cbn. split; [exact B|]. split; [exact C|]. unfold rkeys in D. cbn in D. injection D as D1 D2 D3 D4.
  split; [exact D1|]. split; [exact D2|]. destruct (C a) as (_ & _ & _ & _ & F). rewrite F. split; reflexivity.
Qed.

(** ** The update of a new loader *)

(** The models of a loader and those of [bench]. *)
Lemma set_model_parts : forall c m s ss (p : ElongModel N), set_model c m s ss = Ok p -> tracked p /\ em_state p = s /\ em_stretch p = ss.
Proof.
  intros c m s ss p E. pose proof (set_model_mates c m m s ss) as Q. rewrite E in Q. split; [apply Q|].
  unfold set_model in E. destruct (em_set_cable m (Some c)) as [q| |]; cbn [obind] in E; try discriminate E. injection E as <-. split; reflexivity.
Qed.

Lemma set_model_new : forall c m s ss (p : ElongModel N), set_model c m s ss = Ok p ->
  exists q, set_model c ElongModel_new s ss = Ok q /\ mates q p.
Proof.
  intros c m s ss p E. pose proof (set_model_mates c ElongModel_new m s ss) as Q. rewrite E in Q.
  destruct (set_model c ElongModel_new s ss) as [q| |]; cbn [orel] in Q; try contradiction. exists q. split; [reflexivity|exact Q].
Qed.

(** The stretch load does not matter for setting a model. *)
Lemma set_model_stretch : forall c m s ss ss' (p : ElongModel N), set_model c m s ss = Ok p ->
  set_model c m s ss' = Ok (em_set_stretch p ss').
Proof.
  intros c m s ss ss' p E. unfold set_model in *. destruct (em_set_cable m (Some c)) as [q| |]; cbn [obind] in *; try discriminate E.
  injection E as <-. reflexivity.
Qed.

(** What is known after the initialization: the memory of the loader. *)
Lemma initialize_bench : forall b b1 line, lb_line b = Some line -> lb_cable b = sg_set_base (sr_cable (lc_payload line)) ->
  known_condition (co_condition (sr_constraint (lc_payload line))) = true ->
  InitializeLineCableModels b = Ok b1 ->
  lb_catenary b1 = lb_catenary b /\ lb_line b1 = lb_line b /\ lb_cable b1 = lb_cable b /\
  exists ss mem, bench line ss = Ok mem /\ mmates mem (lb_memory b1 ElongModel_new) /\ (forall a, tracked (mem a)) /\
    em_stretch (mem at_constraint) = ss /\ ss_load ss = #0 /\
    (exists w1, sr_creep (lc_payload line) = Some w1 /\ em_state (mem at_creep) = mkCableState (wl_temperature_cable w1) PTCreep) /\
    (exists w2, sr_load (lc_payload line) = Some w2 /\ em_state (mem at_load) = mkCableState (wl_temperature_cable w2) PTLoadStrain) /\
    match co_condition (sr_constraint (lc_payload line)) with
    | CdInitial => ss = mkStretchState #0 PTLoadStrain #0
    | CdCreep => of_case (sr_creep (lc_payload line)) PTCreep ss
    | CdLoad => of_case (sr_load (lc_payload line)) PTLoadStrain ss
    | CdNull => False
    end.
Proof.
  intros b b1 line L C Kn E. unfold InitializeLineCableModels in E. rewrite L, C in E. cbn [deref obind] in E.
  unfold bench.
  destruct (co_weather (sr_constraint (lc_payload line))) as [w0|]; cbn [deref obind] in E |- *; [|discriminate E].
  set (o := match co_condition (sr_constraint (lc_payload line)) with CdNull => _ | _ => _ end) in E.
  assert (O : exists ss, (o = Ok (Some ss) \/ exists e, o = e /\ match e with Ok _ => False | _ => True end) /\ 
     (o = Ok (Some ss) -> ss_load ss = #0 /\
      match co_condition (sr_constraint (lc_payload line)) with
      | CdInitial => ss = mkStretchState #0 PTLoadStrain #0
      | CdCreep => of_case (sr_creep (lc_payload line)) PTCreep ss
      | CdLoad => of_case (sr_load (lc_payload line)) PTLoadStrain ss
      | CdNull => False
      end)).
  { unfold o, of_case. destruct (co_condition _); cbn in Kn; try discriminate Kn.
    - destruct (sr_creep (lc_payload line)) as [w|]; cbn [deref obind].
      + eexists. split; [left; reflexivity|]. intros _. split; [reflexivity|]. exists w. repeat split; reflexivity.
      + exists StretchState_default. split; [right; eexists; split; [reflexivity|exact Logic.I]|]. intros X. discriminate X.
    - eexists. split; [left; reflexivity|]. intros _. split; reflexivity.
    - destruct (sr_load (lc_payload line)) as [w|]; cbn [deref obind].
      + eexists. split; [left; reflexivity|]. intros _. split; [reflexivity|]. exists w. repeat split; reflexivity.
      + exists StretchState_default. split; [right; eexists; split; [reflexivity|exact Logic.I]|]. intros X. discriminate X. }
  destruct O as (ss & [O|(e & O & F)] & P); clearbody o; [|subst e; destruct o; [contradiction|discriminate E|discriminate E]].
  destruct (P O) as (P1 & P2). subst o. cbn [obind] in E.
  destruct (set_model _ (lb_model_constraint b) _ _) as [m0| |] eqn:E0; cbn [obind] in E; try discriminate E.
  destruct (sr_creep (lc_payload line)) as [w1|]; cbn [deref obind] in E |- *; [|discriminate E].
  destruct (set_model _ (lb_model_creep b) _ _) as [m1| |] eqn:E1; cbn [obind] in E; try discriminate E.
  destruct (sr_load (lc_payload line)) as [w2|]; cbn [deref obind] in E |- *; [|discriminate E].
  destruct (set_model _ (lb_model_load b) _ _) as [m2| |] eqn:E2; cbn [obind] in E; try discriminate E.
  injection E as <-. cbn [lb_catenary lb_line lb_cable]. split; [reflexivity|]. split; [congruence|]. split; [congruence|].
  destruct (set_model_new _ _ _ _ _ E0) as (q0 & Q0 & M0). destruct (set_model_new _ _ _ _ _ E1) as (q1 & Q1 & M1).
  destruct (set_model_new _ _ _ _ _ E2) as (q2 & Q2 & M2).
  exists ss. eexists. split; [rewrite Q0; cbn [obind]; rewrite Q1; cbn [obind]; rewrite Q2; cbn [obind]; reflexivity|].
  assert (MM : mmates (fun a : Z => if (a =? 0)%Z then q0 else if (a =? 1)%Z then q1 else if (a =? 2)%Z then q2 else ElongModel_new)
    (lb_memory (mkLoader (sg_set_base (sr_cable (lc_payload line))) (lb_catenary b) (lb_upd_catenary b) (lb_upd_stretch b) (Some line) m0 m1 m2
                 (lb_creep b) (lb_load b)) ElongModel_new)).
  { intros a. unfold lb_memory, at_constraint, at_creep, at_load. cbn [lb_model_constraint lb_model_creep lb_model_load].
    destruct (a =? 0)%Z; [exact M0|]. destruct (a =? 1)%Z; [exact M1|]. destruct (a =? 2)%Z; [exact M2|apply mates_new]. }
  split; [exact MM|]. split; [intros a; apply (MM a)|].
  destruct (set_model_parts _ _ _ _ _ Q0) as (_ & _ & S0). destruct (set_model_parts _ _ _ _ _ Q1) as (_ & S1 & _).
  destruct (set_model_parts _ _ _ _ _ Q2) as (_ & S2 & _). cbn.
  split; [exact S0|]. split; [exact P1|]. split; [exists w1; split; [reflexivity|exact S1]|]. split; [exists w2; split; [reflexivity|exact S2]|].
  exact P2.
Qed.

(** Another stretch on the bench. *)
Lemma bench_stretch : forall line ss ss' (mem : Models N), bench line ss = Ok mem ->
  exists mem', bench line ss' = Ok mem' /\ forall a, mem' a = put mem at_constraint (em_set_stretch (mem at_constraint) ss') a.
Proof.
  intros line ss ss' mem E. unfold bench in *.
  destruct (co_weather _) as [w0|]; cbn [deref obind] in *; [|discriminate E].
  destruct (sr_creep _) as [w1|]; cbn [deref obind] in *; [|discriminate E].
  destruct (sr_load _) as [w2|]; cbn [deref obind] in *; [|discriminate E].
  destruct (set_model _ _ (mkCableState (wl_temperature_cable w0) PTLoadStrain) ss) as [m0| |] eqn:E0; cbn [obind] in E; try discriminate E.
  rewrite (set_model_stretch _ _ _ _ ss' _ E0). cbn [obind].
  destruct (set_model _ _ (mkCableState (wl_temperature_cable w1) PTCreep) _) as [m1| |]; cbn [obind] in *; try discriminate E.
  destruct (set_model _ _ (mkCableState (wl_temperature_cable w2) PTLoadStrain) _) as [m2| |]; cbn [obind] in *; try discriminate E.
  injection E as <-. eexists. split; [reflexivity|]. intros a. unfold put, at_constraint. cbv beta.
  rewrite (Z.eqb_sym 0 a). destruct (a =? 0)%Z; reflexivity.
Qed.

Lemma carried_of : forall line k ss weather w (mem m : Models N) a t, CatenaryRulingSpan (lc_payload line) = Ok k ->
  unit_load (lc_payload line) weather = Ok w -> bench line ss = Ok mem -> mmates mem m ->
  omap fst (average_reloaded (c3_after_Validate k) w m (rnew a)) = Ok t -> carried line ss weather a = Ok t.
Proof.
  intros line k ss weather w mem m a t K W B M E. unfold carried. rewrite K. cbn [obind]. rewrite W. cbn [obind]. rewrite B. cbn [obind].
  assert (RR : ralike (rnew a) (rnew a)) by (split; [reflexivity|]; split; [reflexivity|]; cbn; discriminate).
  pose proof (average_reloaded_alike (c3_after_Validate k) w mem m (rnew a) (rnew a) M RR) as Q.
  unfold average_reloaded in Q at 1. unfold rnew in *.
  destruct (rl_CatenaryReloaded (fun _ => c3_after_Validate k) (fun _ => w) mem _) as [(c, st)| |],
    (average_reloaded (c3_after_Validate k) w m _) as [(u, st1)| |]; cbn [orel obind omap] in Q, E |- *; try contradiction; try discriminate E.
  cbn [fst snd] in E. injection E as <-. f_equal. apply Q.
Qed.

(** Only the models at the three addresses are used. *)
Definition only_three (n : Models N) : Prop :=
  forall a, a <> at_constraint -> a <> at_creep -> a <> at_load -> mates (n a) ElongModel_new.
Lemma memory_models : forall b (m n : Models N), mmates n m -> only_three n -> mmates n (lb_memory (lb_with_models b m) ElongModel_new).
Proof.
  intros b m n M R a. unfold lb_memory. destruct (Z.eqb_spec a at_constraint); [subst a; apply M|].
  destruct (Z.eqb_spec a at_creep); [subst a; apply M|]. destruct (Z.eqb_spec a at_load); [subst a; apply M|]. apply R; assumption.
Qed.

(** After the search for the stretch of the constraint model: the memory is a bench with the
    stretch [ss], which matches if it was sought. *)
Definition solved (line : Strung N) (ss : StretchState N) : Prop :=
  match co_condition (sr_constraint (lc_payload line)) with
  | CdInitial => ss = mkStretchState #0 PTLoadStrain #0
  | CdCreep => of_case (sr_creep (lc_payload line)) PTCreep ss /\ exists t, carried_creep line ss = Ok t /\ matches t (ss_load ss)
  | CdLoad => of_case (sr_load (lc_payload line)) PTLoadStrain ss /\ exists t, carried_load line ss = Ok t /\ matches t (ss_load ss)
  | CdNull => False
  end.

Lemma bench_three : forall line ss (mem : Models N), bench line ss = Ok mem -> only_three mem.
Proof.
  intros line ss mem E a A B C. unfold bench in E.
  destruct (co_weather _) as [w0|]; cbn [deref obind] in *; [|discriminate E].
  destruct (sr_creep _) as [w1|]; cbn [deref obind] in *; [|discriminate E].
  destruct (sr_load _) as [w2|]; cbn [deref obind] in *; [|discriminate E].
  destruct (set_model _ _ _ ss) as [m0| |]; cbn [obind] in E; try discriminate E.
  destruct (set_model _ _ (mkCableState (wl_temperature_cable w1) PTCreep) _) as [m1| |]; cbn [obind] in *; try discriminate E.
  destruct (set_model _ _ (mkCableState (wl_temperature_cable w2) PTLoadStrain) _) as [m2| |]; cbn [obind] in *; try discriminate E.
  injection E as <-. apply Z.eqb_neq in A, B, C. unfold at_constraint, at_creep, at_load in *. rewrite A, B, C. apply mates_new.
Qed.

Lemma constraint_solved : forall b b1 line k ss0 (mem0 : Models N), starts -> lb_line b = Some line ->
  CatenaryRulingSpan (lc_payload line) = Ok k -> lb_catenary b = c3_after_Validate k ->
  bench line ss0 = Ok mem0 -> mmates mem0 (lb_memory b ElongModel_new) -> (forall a, tracked (mem0 a)) ->
  em_stretch (mem0 at_constraint) = ss0 -> ss_load ss0 = #0 ->
  match co_condition (sr_constraint (lc_payload line)) with
  | CdInitial => ss0 = mkStretchState #0 PTLoadStrain #0
  | CdCreep => of_case (sr_creep (lc_payload line)) PTCreep ss0
  | CdLoad => of_case (sr_load (lc_payload line)) PTLoadStrain ss0
  | CdNull => False
  end ->
  UpdateConstraintCableModel b = Ok (true, b1) ->
  lb_line b1 = lb_line b /\ lb_catenary b1 = lb_catenary b /\
  exists ss mem, bench line ss = Ok mem /\ mmates mem (lb_memory b1 ElongModel_new) /\ solved line ss.
Proof.
  intros b b1 line k ss0 mem0 ST L K C B M T S Z0 P E. unfold UpdateConstraintCableModel in E. rewrite L, C in E. cbn [deref obind] in E.
  assert (G : forall weather a, (do w <- unit_load (lc_payload line) weather;
    do (ok, mem) <- SolveStretch (c3_after_Validate k) w (strength_of (lb_cable b)) (lb_memory b ElongModel_new) a;
    Ok (ok, lb_with_models b mem)) = Ok (true, b1) ->
    lb_line b1 = lb_line b /\ lb_catenary b1 = lb_catenary b /\
    exists v mem t, bench line (ss_with_load ss0 v) = Ok mem /\ mmates mem (lb_memory b1 ElongModel_new) /\
      carried line (ss_with_load ss0 v) weather a = Ok t /\ matches t v).
  { intros weather a X. destruct (unit_load (lc_payload line) weather) as [w| |] eqn:W; cbn [obind] in X; try discriminate X.
    pose proof (SolveStretch_alike (c3_after_Validate k) w (strength_of (lb_cable b)) mem0 (lb_memory b ElongModel_new) a M) as Q.
    destruct (SolveStretch (c3_after_Validate k) w (strength_of (lb_cable b)) (lb_memory b ElongModel_new) a) as [(ok, mem)| |];
      cbn [obind] in X; try discriminate X. injection X as -> <-.
    destruct (SolveStretch (c3_after_Validate k) w (strength_of (lb_cable b)) mem0 a) as [(ok, mem1)| |] eqn:SS; cbn [orel] in Q; try contradiction.
    destruct Q as (Q1 & Q2). cbn [fst snd] in Q1, Q2. subst ok.
    destruct (solve_fresh (c3_after_Validate k) w _ mem0 a mem1 ST T ltac:(rewrite S; exact Z0) SS) as (v & t & M1 & A & MT).
    split; [reflexivity|]. split; [reflexivity|]. exists v.
    destruct (bench_stretch line ss0 (ss_with_load ss0 v) mem0 B) as (mem2 & B2 & EQ).
    assert (M2 : mmates mem2 (stretch_by mem0 v)).
    { intros x. rewrite EQ. unfold stretch_by. rewrite S. eapply mates_trans; [|apply mates_sym]; unfold stretch_by in M1; rewrite S in M1; apply M1. }
    exists mem2, t. split; [exact B2|]. split.
    - apply memory_models; [|apply (bench_three line _ _ B2)]. eapply mmates_trans; [exact M2|]. eapply mmates_trans; [exact M1|exact Q2].
    - split; [|exact MT]. apply (carried_of line k _ weather w mem2 (stretch_by mem0 v) a t K W B2 M2 A). }
  assert (OC : forall weather type v, of_case weather type ss0 -> of_case weather type (ss_with_load ss0 v)).
  { intros weather type v (w & A1 & A2 & A3). exists w. cbn. auto. }
  unfold solved. destruct (co_condition (sr_constraint (lc_payload line))) eqn:Co; try contradiction.
  - destruct (G _ _ E) as (E1 & E2 & v & mem & t & B1 & M1 & CA & MT). split; [exact E1|]. split; [exact E2|].
    exists (ss_with_load ss0 v), mem. split; [exact B1|]. split; [exact M1|]. split; [apply OC, P|]. exists t. split; [exact CA|exact MT].
  - injection E as <-. split; [reflexivity|]. split; [reflexivity|]. exists ss0, mem0. auto.
  - destruct (G _ _ E) as (E1 & E2 & v & mem & t & B1 & M1 & CA & MT). split; [exact E1|]. split; [exact E2|].
    exists (ss_with_load ss0 v), mem. split; [exact B1|]. split; [exact M1|]. split; [apply OC, P|]. exists t. split; [exact CA|exact MT].
Qed.

Lemma bench_parts : forall line ss (mem : Models N), bench line ss = Ok mem ->
  em_stretch (mem at_constraint) = ss /\
  (exists w1, sr_creep (lc_payload line) = Some w1 /\ em_state (mem at_creep) = mkCableState (wl_temperature_cable w1) PTCreep) /\
  (exists w2, sr_load (lc_payload line) = Some w2 /\ em_state (mem at_load) = mkCableState (wl_temperature_cable w2) PTLoadStrain).
Proof.
  intros line ss mem E. unfold bench in E.
  destruct (co_weather _) as [w0|]; cbn [deref obind] in *; [|discriminate E].
  destruct (sr_creep _) as [w1|]; cbn [deref obind] in *; [|discriminate E].
  destruct (sr_load _) as [w2|]; cbn [deref obind] in *; [|discriminate E].
  destruct (set_model _ _ _ ss) as [m0| |] eqn:E0; cbn [obind] in E; try discriminate E.
  destruct (set_model _ _ (mkCableState (wl_temperature_cable w1) PTCreep) _) as [m1| |] eqn:E1; cbn [obind] in *; try discriminate E.
  destruct (set_model _ _ (mkCableState (wl_temperature_cable w2) PTLoadStrain) _) as [m2| |] eqn:E2; cbn [obind] in *; try discriminate E.
  injection E as <-. destruct (set_model_parts _ _ _ _ _ E0) as (_ & _ & S0). destruct (set_model_parts _ _ _ _ _ E1) as (_ & S1 & _).
  destruct (set_model_parts _ _ _ _ _ E2) as (_ & S2 & _).
  split; [exact S0|]. split; [exists w1; split; [reflexivity|exact S1]|exists w2; split; [reflexivity|exact S2]].
Qed.

(** The two stretch states, in the update. *)
Lemma creep_step : forall b line k ss (mem : Models N) r v b1 r1, lb_line b = Some line ->
  CatenaryRulingSpan (lc_payload line) = Ok k -> lb_catenary b = c3_after_Validate k ->
  bench line ss = Ok mem -> mmates mem (lb_memory b ElongModel_new) -> rl_catenary r = Some 0%Z -> rl_reference r = Some at_constraint ->
  UpdateCreep b (lc_payload line) r = Ok (v, (b1, r1)) -> v = true ->
  lb_line b1 = lb_line b /\ lb_catenary b1 = lb_catenary b /\ mmates mem (lb_memory b1 ElongModel_new) /\
  rl_catenary r1 = Some 0%Z /\ rl_reference r1 = Some at_constraint /\
  match co_condition (sr_constraint (lc_payload line)) with
  | CdCreep => lb_creep b1 = ss
  | _ => of_case (sr_creep (lc_payload line)) PTCreep (lb_creep b1) /\ carried_creep line ss = Ok (ss_load (lb_creep b1))
  end.
Proof.
  intros b line k ss mem r v b1 r1 L K C B M R1 R2 E ->. destruct (bench_parts line ss mem B) as (P0 & (w1 & P1 & P2) & _).
  unfold UpdateCreep in E. rewrite C in E.
  assert (G : (do (v, st) <- reloaded_stretch (c3_after_Validate k) (lc_payload line) (sr_creep (lc_payload line)) at_creep
       (lb_memory b ElongModel_new) r;
     let b := lb_with_models b (fst st) in
     match v with Some v => Ok (true, (lb_with_creep b v, snd st)) | None => Ok (false, (b, snd st)) end) = Ok (true, (b1, r1)) ->
     lb_line b1 = lb_line b /\ lb_catenary b1 = lb_catenary b /\ mmates mem (lb_memory b1 ElongModel_new) /\
     rl_catenary r1 = Some 0%Z /\ rl_reference r1 = Some at_constraint /\
     of_case (sr_creep (lc_payload line)) PTCreep (lb_creep b1) /\ carried_creep line ss = Ok (ss_load (lb_creep b1))).
  { clear E. intros E. destruct (reloaded_stretch _ _ _ _ _ _) as [([v|], st)| |] eqn:RS; cbn [obind] in E; try discriminate E.
    injection E as <- <-.
    destruct (reloaded_stretch_fresh _ _ _ _ mem _ r v st M R1 R2 RS) as (w & W & A & M1 & R3 & R4 & T1 & T2).
    split; [reflexivity|]. split; [reflexivity|]. split.
    { intros x. exact (memory_models b (fst st) mem M1 (bench_three line ss mem B) x). }
    split; [exact R3|]. split; [exact R4|]. cbn [lb_creep lb_with_creep]. split.
    - exists w1. split; [exact P1|]. rewrite T1, T2, P2. split; reflexivity.
    - apply (carried_of line k ss _ w mem mem at_creep _ K W B (mmates_self _ _ M) A). }
  destruct (co_condition (sr_constraint (lc_payload line))); try exact (G E).
  injection E as <- <-. split; [reflexivity|]. split; [reflexivity|]. split; [exact M|]. split; [exact R1|]. split; [exact R2|].
  destruct (M at_constraint) as (_ & _ & _ & D & _). cbn [lb_creep lb_with_creep]. rewrite P0 in D. symmetry. exact D.
Qed.

Lemma load_step : forall b line k ss (mem : Models N) r v b1 r1, lb_line b = Some line ->
  CatenaryRulingSpan (lc_payload line) = Ok k -> lb_catenary b = c3_after_Validate k ->
  bench line ss = Ok mem -> mmates mem (lb_memory b ElongModel_new) -> rl_catenary r = Some 0%Z -> rl_reference r = Some at_constraint ->
  UpdateLoad b (lc_payload line) r = Ok (v, (b1, r1)) -> v = true ->
  lb_creep b1 = lb_creep b /\
  match co_condition (sr_constraint (lc_payload line)) with
  | CdLoad => lb_load b1 = ss
  | _ => of_case (sr_load (lc_payload line)) PTLoadStrain (lb_load b1) /\ carried_load line ss = Ok (ss_load (lb_load b1))
  end.
Proof.
  intros b line k ss mem r v b1 r1 L K C B M R1 R2 E ->. destruct (bench_parts line ss mem B) as (P0 & _ & (w2 & P1 & P2)).
  unfold UpdateLoad in E. rewrite C in E.
  assert (G : (do (v, st) <- reloaded_stretch (c3_after_Validate k) (lc_payload line) (sr_load (lc_payload line)) at_load
       (lb_memory b ElongModel_new) r;
     let b := lb_with_models b (fst st) in
     match v with Some v => Ok (true, (lb_with_load b v, snd st)) | None => Ok (false, (b, snd st)) end) = Ok (true, (b1, r1)) ->
     lb_creep b1 = lb_creep b /\
     of_case (sr_load (lc_payload line)) PTLoadStrain (lb_load b1) /\ carried_load line ss = Ok (ss_load (lb_load b1))).
  { clear E. intros E. destruct (reloaded_stretch _ _ _ _ _ _) as [([v|], st)| |] eqn:RS; cbn [obind] in E; try discriminate E.
    injection E as <- <-.
    destruct (reloaded_stretch_fresh _ _ _ _ mem _ r v st M R1 R2 RS) as (w & W & A & M1 & R3 & R4 & T1 & T2).
    split; [reflexivity|]. cbn [lb_load lb_with_load]. split.
    - exists w2. split; [exact P1|]. rewrite T1, T2, P2. split; reflexivity.
    - apply (carried_of line k ss _ w mem mem at_load _ K W B (mmates_self _ _ M) A). }
  destruct (co_condition (sr_constraint (lc_payload line))); try exact (G E).
  injection E as <- <-. split; [reflexivity|].
  destruct (M at_constraint) as (_ & _ & _ & D & _). cbn [lb_load lb_with_load]. rewrite P0 in D. symmetry. exact D.
Qed.

Lemma update_stretches : forall b b1 line, starts -> lb_line b = Some line ->
  lb_cable b = sg_set_base (sr_cable (lc_payload line)) -> lb_Update b = Ok (true, b1) -> stretches line (lb_creep b1) (lb_load b1).
Proof.
  intros b b1 line ST L C E. unfold lb_Update in E.
  destruct (UpdateConstraintCatenary b) as [(ok, b2)| |] eqn:U; cbn [obind] in E; try discriminate E. destruct ok; [|discriminate E].
  unfold UpdateConstraintCatenary in U. rewrite L in U. cbn [deref obind] in U.
  destruct (CatenaryRulingSpan (lc_payload line)) as [k| |] eqn:K; cbn [obind] in U; try discriminate U.
  destruct (c3_Validate k); [|discriminate U]. injection U as <-.
  set (b3 := lb_with_flags _ true _) in E.
  destruct (InitializeLineCableModels b3) as [b4| |] eqn:In; cbn [obind] in E; try discriminate E.
  destruct (UpdateConstraintCableModel b4) as [(ok, b5)| |] eqn:UC; cbn [obind] in E; try discriminate E. destruct ok; [|discriminate E].
  assert (Kn : known_condition (co_condition (sr_constraint (lc_payload line))) = true).
  { destruct (co_condition (sr_constraint (lc_payload line))) eqn:Co; try reflexivity.
    exfalso. assert (L4 : lb_line b4 = Some line).
    { unfold InitializeLineCableModels in In. change (lb_line b3) with (lb_line b) in In. rewrite L in In. cbn [deref obind] in In. rewrite Co in In.
      destruct (co_weather _) as [w|]; cbn [deref obind] in In; [|discriminate In]. injection In as <-. exact L. }
    unfold UpdateConstraintCableModel in UC. rewrite L4 in UC. cbn [deref obind] in UC. rewrite Co in UC. discriminate UC. }
  destruct (initialize_bench b3 b4 line L C Kn In) as (C4 & L4 & _ & ss0 & mem0 & B0 & M0 & T0 & S0 & Z0 & _ & _ & P0).
  change (lb_line b3) with (lb_line b) in L4. change (lb_catenary b3) with (c3_after_Validate k) in C4. rewrite L in L4.
  destruct (constraint_solved b4 b5 line k ss0 mem0 ST L4 K C4 B0 M0 T0 S0 Z0 P0 UC) as (L5 & C5 & ss & mem & B & M & SV).
  set (b6 := lb_with_flags b5 true (lb_upd_stretch b5)) in E.
  destruct (UpdateLoadStretch b6) as [(ok, b7)| |] eqn:UL; cbn [obind] in E; try discriminate E. injection E as -> <-.
  cbn [lb_creep lb_load lb_with_flags].
  unfold UpdateLoadStretch in UL. change (lb_line b6) with (lb_line b5) in UL. rewrite L5, L4 in UL. cbn [deref obind] in UL.
  destruct (UpdateCreep b6 (lc_payload line) reloader_from) as [(ok, (b8, r8))| |] eqn:X1; cbn [obind] in UL; try discriminate UL.
  destruct ok; [|discriminate UL]. cbn [fst snd] in UL.
  destruct (creep_step b6 line k ss mem reloader_from true b8 r8 (eq_trans L5 L4) K (eq_trans C5 C4) B M eq_refl eq_refl X1 eq_refl)
    as (L8 & C8 & M8 & R1 & R2 & V1).
  destruct (UpdateLoad b8 (lc_payload line) r8) as [(ok, (b9, r9))| |] eqn:X2; cbn [obind] in UL; try discriminate UL.
  injection UL as -> <-. cbn [fst].
  destruct (load_step b8 line k ss mem r8 true b9 r9 (eq_trans L8 (eq_trans L5 L4)) K (eq_trans C8 (eq_trans C5 C4)) B M8 R1 R2 X2 eq_refl) as (V2 & V3).
  rewrite V2. unfold stretches, solved in *. destruct (co_condition (sr_constraint (lc_payload line))); try contradiction.
  - rewrite V1. destruct SV as (A & D). destruct V3 as (F & G). auto.
  - subst ss. destruct V1, V3. auto.
  - rewrite V3. destruct SV as (A & D). destruct V1 as (F & G). auto.
Qed.

(** ** Line cable reloaders *)
Lemma rest_keeps : forall (r : Reloader N) v r1, lr_Update_rest r = Ok (v, r1) ->
  lb_creep (lr_base r1) = lb_creep (lr_base r) /\ lb_load (lr_base r1) = lb_load (lr_base r).
Proof.
  intros r v r1 E. unfold lr_Update_rest in E.
  assert (A : forall r v r1, UpdateReloadedCableModel r = Ok (v, r1) ->
    lb_creep (lr_base (N := N) r1) = lb_creep (lr_base r) /\ lb_load (lr_base r1) = lb_load (lr_base r)).
  { clear. intros r v r1 E. unfold UpdateReloadedCableModel in E. destruct (deref (lr_weather r)) as [w| |]; cbn [obind] in E; try discriminate E.
    destruct (UpdateLastModel _ _ _ _) as [(ok, m)| |]; cbn [obind] in E; try discriminate E. injection E as _ <-. split; reflexivity. }
  assert (B : forall r v r1, UpdateReloadedCatenary r = Ok (v, r1) ->
    lb_creep (lr_base (N := N) r1) = lb_creep (lr_base r) /\ lb_load (lr_base r1) = lb_load (lr_base r)).
  { clear. intros r v r1 E. unfold UpdateReloadedCatenary in E. destruct (deref (lb_line (lr_base r))) as [l| |]; cbn [obind] in E; try discriminate E.
    destruct (unit_load _ _) as [w| |]; cbn [obind] in E; try discriminate E.
    destruct (rl_Validate _ _ _ _ _) as [([|], st)| |]; cbn [obind] in E; try discriminate E.
    - destruct (rl_CatenaryReloaded _ _ _ _) as [(c, st1)| |]; cbn [obind] in E; try discriminate E. injection E as _ <-. split; reflexivity.
    - injection E as _ <-. split; reflexivity. }
  destruct (if lr_upd_model r then _ else _) as [(ok, r2)| |] eqn:E1; cbn [obind] in E; try discriminate E.
  assert (C1 : lb_creep (lr_base r2) = lb_creep (lr_base r) /\ lb_load (lr_base r2) = lb_load (lr_base r)).
  { destruct (lr_upd_model r); [injection E1 as _ <-; split; reflexivity|].
    destruct (UpdateReloadedCableModel r) as [(ok1, r3)| |] eqn:E2; cbn [obind] in E1; try discriminate E1. injection E1 as _ <-. exact (A _ _ _ E2). }
  destruct ok; [|injection E as _ <-; exact C1].
  destruct (lr_upd_catenary r2); [injection E as _ <-; exact C1|].
  destruct (UpdateReloadedCatenary r2) as [(ok1, r3)| |] eqn:E2; cbn [obind] in E; try discriminate E. injection E as _ <-.
  destruct (B _ _ _ E2) as (B1 & B2). cbn. rewrite B1, B2. exact C1.
Qed.

Lemma fresh_stretches : forall line c w creep r1 load r2, starts ->
  lr_StretchStateCreep (lr_fresh line c w) = Ok (creep, r1) -> lr_StretchStateLoad (lr_fresh line c w) = Ok (load, r2) ->
  creep = StretchState_default (N := N) /\ load = StretchState_default \/ exists l, line = Some l /\ stretches l creep load.
Proof.
  intros line c w creep r1 load r2 ST E1 E2. unfold lr_StretchStateCreep in E1. unfold lr_StretchStateLoad in E2.
  unfold lr_ensure in *. change (lr_IsUpdated (lr_fresh line c w)) with false in *. cbn match in *.
  destruct (lr_Update (lr_fresh line c w)) as [(ok, r)| |] eqn:U; cbn [obind] in E1, E2; try discriminate E1.
  injection E1 as <- <-. injection E2 as <- <-. destruct ok; [right|left; split; reflexivity].
  unfold lr_Update in U. change (lb_IsUpdated (lr_base (lr_fresh line c w))) with false in U. cbn match in U.
  set (b := lr_base _) in U.
  destruct (lb_Update b) as [(ok, b1)| |] eqn:UB; cbn [obind] in U; try discriminate U. destruct ok; [|discriminate U].
  destruct (rest_keeps _ _ _ U) as (K1 & K2). cbn [lr_base lr_with_base] in K1, K2. rewrite K1, K2.
  destruct line as [l|].
  - exists l. split; [reflexivity|]. apply (update_stretches b b1 l ST eq_refl eq_refl UB).
  - exfalso. unfold lb_Update, UpdateConstraintCatenary in UB. cbn in UB. discriminate UB.
Qed.

Lemma history_stretches : forall env (ks : list (LrCall N)) r creep r1 load r2, starts -> lr_run env Reloader_new ks = Ok r ->
  lr_StretchStateCreep r = Ok (creep, r1) -> lr_StretchStateLoad r = Ok (load, r2) ->
  creep = StretchState_default (N := N) /\ load = StretchState_default \/
  exists line, last_of pickLr_line ks None = Some line /\ stretches line creep load.
Proof.
  intros env ks r creep r1 load r2 ST R E1 E2. destruct (reloader_history env ks r R) as (_ & A & B & _).
  rewrite E1 in A. rewrite E2 in B. cbn [omap fst] in A, B.
  destruct (lr_StretchStateCreep (lr_fresh _ _ _)) as [(x, r3)| |] eqn:X; cbn [omap fst] in A; try discriminate A. injection A as <-.
  destruct (lr_StretchStateLoad (lr_fresh _ _ _)) as [(y, r4)| |] eqn:Y; cbn [omap fst] in B; try discriminate B. injection B as <-.
  exact (fresh_stretches _ _ _ _ _ _ _ ST X Y).
Qed.

(** ** Line cable unloaders *)
Lemma rest_keeps_u : forall (u : Unloader N) v u1, lu_Update_rest u = Ok (v, u1) ->
  lb_creep (lu_base u1) = lb_creep (lu_base u) /\ lb_load (lu_base u1) = lb_load (lu_base u).
Proof.
  intros r v r1 E. unfold lu_Update_rest in E.
  assert (A : forall r v r1, UpdateUnloadedCableModel r = Ok (v, r1) ->
    lb_creep (lu_base (N := N) r1) = lb_creep (lu_base r) /\ lb_load (lu_base r1) = lb_load (lu_base r)).
  { clear. intros r v r1 E. unfold UpdateUnloadedCableModel in E.
    destruct (UpdateLastModel _ _ _ _) as [(ok, m)| |]; cbn [obind] in E; try discriminate E. injection E as _ <-. split; reflexivity. }
  assert (B : forall r v r1, UpdateUnloadedLength r = Ok (v, r1) ->
    lb_creep (lu_base (N := N) r1) = lb_creep (lu_base r) /\ lb_load (lu_base r1) = lb_load (lu_base r)).
  { clear. intros r v r1 E. unfold UpdateUnloadedLength in E.
    repeat match type of E with
    | obind ?o _ = _ => destruct o as [?| |]; cbn [obind] in E; try discriminate E
    | (let '(_, _) := ?p in _) = _ => destruct p
    | (if ?b then _ else _) = _ => destruct b
    end; injection E as _ <-; split; reflexivity. }
  destruct (if lu_upd_model r then _ else _) as [(ok, r2)| |] eqn:E1; cbn [obind] in E; try discriminate E.
  assert (C1 : lb_creep (lu_base r2) = lb_creep (lu_base r) /\ lb_load (lu_base r2) = lb_load (lu_base r)).
  { destruct (lu_upd_model r); [injection E1 as _ <-; split; reflexivity|].
    destruct (UpdateUnloadedCableModel r) as [(ok1, r3)| |] eqn:E2; cbn [obind] in E1; try discriminate E1. injection E1 as _ <-. exact (A _ _ _ E2). }
  destruct ok; [|injection E as _ <-; exact C1].
  destruct (lu_upd_length r2); [injection E as _ <-; exact C1|].
  destruct (UpdateUnloadedLength r2) as [(ok1, r3)| |] eqn:E2; cbn [obind] in E; try discriminate E. injection E as _ <-.
  destruct (B _ _ _ E2) as (B1 & B2). cbn. rewrite B1, B2. exact C1.
Qed.

Lemma fresh_stretches_u : forall line c s t creep u1 load u2, starts ->
  lu_StretchStateCreep (lu_fresh line c s t) = Ok (creep, u1) -> lu_StretchStateLoad (lu_fresh line c s t) = Ok (load, u2) ->
  creep = StretchState_default (N := N) /\ load = StretchState_default \/ exists l, line = Some l /\ stretches l creep load.
Proof.
  intros line c s t creep r1 load r2 ST E1 E2. unfold lu_StretchStateCreep in E1. unfold lu_StretchStateLoad in E2.
  unfold lu_ensure in *. change (lu_IsUpdated (lu_fresh line c s t)) with false in *. cbn match in *.
  destruct (lu_Update (lu_fresh line c s t)) as [(ok, r)| |] eqn:U; cbn [obind] in E1, E2; try discriminate E1.
  injection E1 as <- <-. injection E2 as <- <-. destruct ok; [right|left; split; reflexivity].
  unfold lu_Update in U. change (lb_IsUpdated (lu_base (lu_fresh line c s t))) with false in U. cbn match in U.
  set (b := lu_base _) in U.
  destruct (lb_Update b) as [(ok, b1)| |] eqn:UB; cbn [obind] in U; try discriminate U. destruct ok; [|discriminate U].
  destruct (rest_keeps_u _ _ _ U) as (K1 & K2). cbn [lu_base lu_with_base] in K1, K2. rewrite K1, K2.
  destruct line as [l|].
  - exists l. split; [reflexivity|]. apply (update_stretches b b1 l ST eq_refl eq_refl UB).
  - exfalso. unfold lb_Update, UpdateConstraintCatenary in UB. cbn in UB. discriminate UB.
Qed.

Lemma history_stretches_u : forall env (ks : list (LuCall N)) u creep u1 load u2, starts -> lu_run env Unloader_new ks = Ok u ->
  lu_StretchStateCreep u = Ok (creep, u1) -> lu_StretchStateLoad u = Ok (load, u2) ->
  creep = StretchState_default (N := N) /\ load = StretchState_default \/
  exists line, last_of pickLu_line ks None = Some line /\ stretches line creep load.
Proof.
  intros env ks r creep r1 load r2 ST R E1 E2. destruct (unloader_history env ks r R) as (_ & A & B & _).
  rewrite E1 in A. rewrite E2 in B. cbn [omap fst] in A, B.
  destruct (lu_StretchStateCreep (lu_fresh _ _ _ _)) as [(x, r3)| |] eqn:X; cbn [omap fst] in A; try discriminate A. injection A as <-.
  destruct (lu_StretchStateLoad (lu_fresh _ _ _ _)) as [(y, r4)| |] eqn:Y; cbn [omap fst] in B; try discriminate B. injection B as <-.
  exact (fresh_stretches_u _ _ _ _ _ _ _ _ ST X Y).
Qed.

End Stretch.
