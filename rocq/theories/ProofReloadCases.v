(** The theorems about the reloader for histories, and the sample cases. *)
From Coq Require Import ZArith Bool List Reals Lra Lia.
From Verif Require Import Num NumFacts ModelBase ModelCable ModelCatenary SpecCatenary ProofCatenary ProofReal ModelSolver ProofSolver
  ProofSolverTarget ModelThermal ProofThermalCases ModelElongation SpecElong ProofElong ProofElongHistory ProofStrainer
  ModelReload SpecReload ProofReload ProofReloadGap ProofReloadSafe SampleElongReal SampleReload ProofSolverReal ProofSpan ProofReloadRefuted.
Import ListNotations.
Open Scope R_scope.

(** ** The balance of the lengths after any history *)
Lemma history_balance : forall (cats : Cats RNum) weights ks mem m r a e0 e1 w m' r', tidy_models mem ->
  forallb rl_quiet ks = true -> rl_run cats weights (mem, CatReloader_new) ks = Ok (m, r) ->
  last_of pickR_catenary ks None = Some a -> last_of pickR_reference ks None = Some e0 ->
  last_of pickR_reloaded ks None = Some e1 -> last_of pickR_weight ks None = Some w ->
  1 / 100 < tension_minimum (rehung (cats a) (weights w) (c3_tension_horizontal (cats a))) ->
  rl_Update cats weights m r = Ok (true, (m', r')) ->
  let h := c3_tension_horizontal (rl_result r') in
  (forall q, c3_answer (rl_result r') q = c3_answer (rehung (cats a) (weights w) h) q) /\
  exists y, length_gap (cable_strain (mem e0)) (cable_strain (mem e1)) (cats a) (weights w) h = Ok y /\ y < 1 / 10 /\
    near_balance (length_gap (cable_strain (mem e0)) (cable_strain (mem e1)) (cats a) (weights w)) h y.
Proof.
  intros cats weights ks mem m r a e0 e1 w m' r' D Q E A B C W Min U. cbv zeta.
  pose proof (tidy_tracked _ mem D) as T.
  assert (I : rinv cats weights mem (mem, CatReloader_new)) by (split; [apply mmates_refl, T|discriminate]).
  destruct (run_rinv cats weights ks mem _ _ I Q E) as (H & F0).
  cbn [snd CatReloader_new rl_catenary rl_reference rl_reloaded rl_weight] in F0. rewrite A, B, C, W in F0.
  pose proof (Update_fresh cats weights mem m r H) as V. rewrite U, F0 in V.
  destruct (rl_Update cats weights mem (rl_fresh (Some a) (Some e0) (Some e1) (Some w))) as [(b, (m2, r2))| |] eqn:E2; cbn [orel] in V; try contradiction.
  destruct V as (V1 & _ & _ & _ & _ & V6). cbn [fst snd] in V1, V6. subst b. specialize (V6 eq_refl).
  destruct (solved_balance cats weights mem a e0 e1 w m2 r2 T Min E2) as (TW & y & G & Y & NB).
  assert (HH : c3_tension_horizontal (rl_result r') = c3_tension_horizontal (rl_result r2)) by apply V6.
  rewrite HH. split; [|exists y; auto].
  intros q. transitivity (c3_answer (rl_result r2) q); [apply twin_answer; exact V6|apply twin_answer; exact TW].
Qed.

(** ** What follows from a search *)
Lemma Validate_update : forall (cats : Cats RNum) weights mem mem' r b st,
  rl_Validate cats weights false mem r = rl_Update cats weights mem' r -> rl_Update cats weights mem' r = Ok (b, st) ->
  rl_Validate cats weights false mem r = Ok (b, st).
Proof. intros. congruence. Qed.

Lemma Update_marks : forall (cats : Cats RNum) weights mem r m s, rl_Update cats weights mem r = Ok (true, (m, s)) -> rl_updated s = true.
Proof.
  intros cats weights mem r m s E. unfold rl_Update in E. destruct (rl_updated r) eqn:U; [injection E as <- <-; exact U|].
  destruct (SolveReloaded cats weights mem r) as [(b, (m1, r1))| |]; cbn [obind] in E; try discriminate E.
  injection E as -> _ <-. reflexivity.
Qed.

Lemma Tension_updated : forall (cats : Cats RNum) weights mem r, rl_updated r = true ->
  rl_TensionHorizontal cats weights mem r = Ok (c3_tension_horizontal (rl_result r), (mem, r)).
Proof. intros cats weights mem r U. unfold rl_TensionHorizontal, rl_Update. rewrite U. reflexivity. Qed.
Lemma Catenary_updated : forall (cats : Cats RNum) weights mem r, rl_updated r = true ->
  rl_CatenaryReloaded cats weights mem r = Ok (rl_result r, (mem, r)).
Proof. intros cats weights mem r U. unfold rl_CatenaryReloaded, rl_Update. rewrite U. reflexivity. Qed.

(** ** The witnesses *)
Lemma balance_refuted : exists (cats : Cats RNum) weights (mem : Models RNum) m r h y st,
  let g := length_gap (cable_strain (mem 0%Z)) (cable_strain (mem 1%Z)) (cats 0%Z) (weights 0%Z) in
  tidy_models mem /\ rl_Validate cats weights false mem (rl_fresh (Some 0%Z) (Some 0%Z) (Some 1%Z) (Some 0%Z)) = Ok (true, (m, r)) /\
  rl_TensionHorizontal cats weights m r = Ok (h, st) /\ g h = Ok y /\ y < -5 /\
  g (c3_tension_horizontal (cats 0%Z)) = Ok (0 : F RNum).
Proof.
  assert (TH : thin = 39 / 100000) by reflexivity.
  destruct (sample_Validate 100 thin thin_h 0 (l_memory false 70 (70 + 0))) as (mem' & M & V); try lra; try (unfold thin_h; lra); try reflexivity.
  destruct (thin_search true mem' M) as (m & r & E & H). destruct (thin_miss false) as (y & G & Y).
  exists (l_cats 100 thin thin_h), (l_weights thin), (l_memory false 70 (70 + 0)), m, r, (75 * thin : F RNum), y, (m, r). cbv zeta.
  split; [apply l_tidy|]. split; [rewrite V at 1; exact E|].
  split; [rewrite (Tension_updated _ _ _ _ (Update_marks _ _ _ _ _ _ E)); do 2 f_equal; exact H|].
  split; [exact G|]. split; [exact Y|]. apply thin_zero.
Qed.

Lemma light_span : forall (cats : Cats RNum) weights (mem : Models RNum) a e0 e1 w yl yr, tidy_models mem ->
  let low := tension_minimum (rehung (cats a) (weights w) (c3_tension_horizontal (cats a))) in
  let g := length_gap (cable_strain (mem e0)) (cable_strain (mem e1)) (cats a) (weights w) in
  0 <= low <= 1 / 100 -> g low = Ok yl -> g (2 * low) = Ok yr ->
  exists st, rl_TensionHorizontal cats weights mem (rl_fresh (Some a) (Some e0) (Some e1) (Some w)) = Ok (2 * low, st).
Proof.
  intros cats weights mem a e0 e1 w yl yr D. cbv zeta. intros H GL GR.
  destruct (no_pass cats weights mem a e0 e1 w (tidy_tracked _ mem D) yl yr H GL GR) as (m & r & E & X).
  exists (m, r). unfold rl_TensionHorizontal. rewrite E. cbn [obind snd]. do 2 f_equal. exact X.
Qed.

Lemma own_state_refuted : exists (cats : Cats RNum) weights (mem : Models RNum) st st',
  tidy_models mem /\ c3_Validate (cats 0%Z) = true /\ mem 0%Z = mem 1%Z /\ c3_weight (cats 0%Z) = weights 0%Z /\
  length_gap (cable_strain (mem 0%Z)) (cable_strain (mem 1%Z)) (cats 0%Z) (weights 0%Z) (c3_tension_horizontal (cats 0%Z)) = Ok (0 : F RNum) /\
  rl_Validate cats weights false mem (rl_fresh (Some 0%Z) (Some 0%Z) (Some 1%Z) (Some 0%Z)) = Ok (false, st) /\
  rl_TensionHorizontal cats weights mem (rl_fresh (Some 0%Z) (Some 0%Z) (Some 1%Z) (Some 0%Z)) = Ok (ferr, st').
Proof.
  destruct (sample_Validate 1000 1 750 0 (l_memory false 70 (70 + 0))) as (mem' & M & V); try lra; try reflexivity.
  destruct (middle_search true mem' M) as (m & r & E). destruct (middle_search false (l_memory false 70 (70 + 0)) (fun _ => eq_refl)) as (m1 & r1 & E1).
  exists (l_cats 1000 1 750), (l_weights 1), (l_memory false 70 (70 + 0)), (m, r), (m1, r1).
  split; [apply l_tidy|]. split; [apply level_valid; lra|].
  split; [unfold l_memory; cbn; f_equal; lra|]. split; [reflexivity|]. split; [apply middle_zero|].
  split; [rewrite V at 1; exact E|]. unfold rl_TensionHorizontal. change (rl_fresh (Some 0%Z) (Some 0%Z) (Some 1%Z) (Some 0%Z)) with l_reloader.
  rewrite E1. reflexivity.
Qed.

Lemma result_valid_refuted : exists (cats : Cats RNum) weights (mem : Models RNum) m r c st,
  tidy_models mem /\ c3_Validate (cats 0%Z) = true /\
  rl_Validate cats weights false mem (rl_fresh (Some 0%Z) (Some 0%Z) (Some 1%Z) (Some 0%Z)) = Ok (true, (m, r)) /\
  rl_CatenaryReloaded cats weights m r = Ok (c, st) /\ c3_Validate c = false.
Proof.
  destruct (sample_Validate 1000 1 500 (1 / 20) (l_memory false 70 (70 + 1 / 20))) as (mem' & M & V); try lra; try reflexivity.
  destruct (low_search true mem' M) as (m & r & E & _ & H).
  exists (l_cats 1000 1 500), (l_weights 1), (l_memory false 70 (70 + 1 / 20)), m, r, (rl_result r), (m, r).
  split; [apply l_tidy|]. split; [apply level_valid; lra|]. split; [rewrite V at 1; exact E|].
  split; [apply Catenary_updated, (Update_marks _ _ _ _ _ _ E)|exact H].
Qed.

(** ** Cases of the theorems *)
Definition l_reload_calls : list RlCall :=
  [RlSetCatenary (Some 0%Z); RlSetReference (Some 0%Z); RlSetReloaded (Some 1%Z); RlSetWeight (Some 0%Z)].

Lemma l_reload_run : forall (cats : Cats RNum) weights mem ks,
  rl_run cats weights (mem, CatReloader_new) (l_reload_calls ++ ks) = rl_run cats weights (mem, l_reloader) ks.
Proof. reflexivity. Qed.

Lemma history_case : exists (cats : Cats RNum) weights mem ks st, tidy_models mem /\ forallb rl_quiet ks = true /\
  In RlTensionHorizontal ks /\ rl_run cats weights (mem, CatReloader_new) ks = Ok st.
Proof.
  destruct (low_search false (l_memory false 70 (70 + 1 / 20)) (fun _ => eq_refl)) as (m & r & E & _ & _).
  exists (l_cats 1000 1 500), (l_weights 1), (l_memory false 70 (70 + 1 / 20)),
    (l_reload_calls ++ [RlTensionHorizontal; RlSetWeight (Some 1%Z)]). eexists.
  split; [apply l_tidy|]. split; [reflexivity|]. split; [do 4 right; left; reflexivity|].
  etransitivity; [apply l_reload_run|]. cbn [rl_run rl_call]. unfold rl_TensionHorizontal. rewrite E. cbn [obind omap snd]. reflexivity.
Qed.

Lemma balance_case : exists (cats : Cats RNum) weights mem ks m r m' r', tidy_models mem /\ forallb rl_quiet ks = true /\
  rl_run cats weights (mem, CatReloader_new) ks = Ok (m, r) /\
  last_of pickR_catenary ks None = Some 0%Z /\ last_of pickR_reference ks None = Some 0%Z /\
  last_of pickR_reloaded ks None = Some 1%Z /\ last_of pickR_weight ks None = Some 0%Z /\
  1 / 100 < tension_minimum (rehung (cats 0%Z) (weights 0%Z) (c3_tension_horizontal (cats 0%Z))) /\
  rl_Update cats weights m r = Ok (true, (m', r')).
Proof.
  destruct (low_search false (l_memory false 70 (70 + 1 / 20)) (fun _ => eq_refl)) as (m & r & E & _ & _).
  exists (l_cats 1000 1 500), (l_weights 1), (l_memory false 70 (70 + 1 / 20)), l_reload_calls, (l_memory false 70 (70 + 1 / 20)), l_reloader, m, r.
  split; [apply l_tidy|]. split; [reflexivity|]. split; [reflexivity|]. do 4 (split; [reflexivity|]).
  split; [|exact E]. pose proof (long_minimum 500) as X. rewrite X. lra.
Qed.

Lemma light_case : exists (cats : Cats RNum) weights (mem : Models RNum) yl yr, tidy_models mem /\
  let low := tension_minimum (rehung (cats 0%Z) (weights 0%Z) (c3_tension_horizontal (cats 0%Z))) in
  let g := length_gap (cable_strain (mem 0%Z)) (cable_strain (mem 1%Z)) (cats 0%Z) (weights 0%Z) in
  0 < low /\ 0 <= low <= 1 / 100 /\ g low = Ok yl /\ g (2 * low) = Ok yr.
Proof.
  exists (l_cats 1 (1 / 100) (1 / 10)), (l_weights (1 / 100)), (l_memory false 70 (70 + 0)), (l_gap 1 (1 / 100) (1 / 10) 0 (1 / 200)),
    (l_gap 1 (1 / 100) (1 / 10) 0 (1 / 100)).
  split; [apply l_tidy|]. cbv zeta.
  assert (X : (tension_minimum (rehung (l_cats 1 (1 / 100) (1 / 10) 0%Z) (l_weights (1 / 100) 0%Z)
    (c3_tension_horizontal (l_cats 1 (1 / 100) (1 / 10) 0%Z))) : R) = 1 / 200).
  { change (rehung (l_cats 1 (1 / 100) (1 / 10) 0%Z) (l_weights (1 / 100) 0%Z) (c3_tension_horizontal (l_cats 1 (1 / 100) (1 / 10) 0%Z))) with (level 1 (1 / 100) (1 / 10)).
    rewrite level_minimum by lra. lra. }
  rewrite X. replace (2 * (1 / 200)) with (1 / 100) by field. split; [lra|]. split; [lra|].
  assert (A1 := average_range 1 (1 / 100) (1 / 10) ltac:(lra) ltac:(lra) ltac:(lra)).
  assert (A2 := average_range 1 (1 / 100) (1 / 200) ltac:(lra) ltac:(lra) ltac:(lra)).
  assert (A3 := average_range 1 (1 / 100) (1 / 100) ltac:(lra) ltac:(lra) ltac:(lra)).
  split; apply sample_gap; try lra.
Qed.

Lemma l_usable : forall t, Forall usable_call (l_setters t).
Proof.
  intros t. unfold l_setters.
  assert (C : exists x, In x l_line /\ (x =? fofZ 0)%num = false).
  { exists (131072 : RNum). split; [right; left; reflexivity|]. rn. apply Reqb_false. lra. }
  apply Forall_cons; [|apply Forall_cons; [|apply Forall_cons; [|apply Forall_nil]]]; cbn [usable_call].
  - exists l_cable. split; [reflexivity|]. right. split; exact C.
  - discriminate.
  - left. discriminate.
Qed.
Lemma l_ready : forall t, ready_models (fun _ => l_model t).
Proof. intros t a. exists (l_setters t). split; [apply l_usable|]. split; [reflexivity|apply l_run]. Qed.

(** ** The unloader *)
Definition l_unload_calls : list UnCall := [UnSetReference (Some 0%Z); UnSetCatenary (Some 0%Z); UnSetUnloaded (Some 1%Z)].

Lemma unload_case : exists (cats : Cats RNum) mem u v mem', tidy_models mem /\ un_run cats CatUnloader_new l_unload_calls = Ok u /\
  un_LengthUnloaded mem u = Ok (v, mem').
Proof.
  destruct (unload_answers (l_cats 1000 1 500) (fun _ _ => true) false (fun _ => l_model 70) l_unload_calls (l_ready 70) eq_refl) as (u & E & H & _);
    try discriminate.
  exists (l_cats 1000 1 500), (fun _ => l_model 70), u.
  destruct (un_LengthUnloaded (fun _ => l_model 70) u) as [(v, mem')| |]; try discriminate H. exists v, mem'.
  split; [intros a; exists (l_setters 70); split; [reflexivity|apply l_run]|]. auto.
Qed.

Lemma level_inputs : forall a w h u, 0 < a -> 0 < w -> 0 < h -> un_set_catenary (l_cats a w h) CatUnloader_new (Some 0%Z) = Ok u ->
  cr_inputs_valid (un_strainer u) = true.
Proof.
  intros a w h u Ha Hw Hh E. cbn [un_set_catenary deref obind] in E. injection E as <-. unfold cr_inputs_valid. cbn [un_strainer cr_length cr_load_finish cr_load_start cr_set_load_start cr_set_length CatUnloader_new cr_set_load_finish].
  assert (L : (c3_Length (l_cats a w h 0%Z) : R) = glen a (h / w)) by (apply level_length; assumption).
  assert (A : h <= c3_TensionAverage (l_cats a w h 0%Z) 100) by (apply (level_average a w Ha Hw h Hh)).
  assert (G : 0 < glen a (h / w)) by (apply glen_pos; [exact Ha|apply Rdiv_lt_0_compat; lra]).
  rewrite L. apply andb_true_iff. split; [apply andb_true_iff; split|]; apply negb_true_iff; rn.
  - apply Rleb_false. exact G.
  - apply Rltb_false. lra.
  - apply Rltb_false. change (F RNum) with R in *. lra.
Qed.

Lemma unload_refuted :
  (forall (N : Num) (cats : Cats N) u, un_set_catenary cats u None = UB) /\
  (exists (cats : Cats RNum) u, c3_Validate (cats 0%Z) = true /\ un_run cats CatUnloader_new [UnSetCatenary (Some 0%Z)] = Ok u /\
     forall same warn mem, un_Validate cats same warn mem u = UB) /\
  (forall (N : Num) (cats : Cats N) weights mem, rl_TensionHorizontal cats weights mem CatReloader_new = UB).
Proof.
  split; [reflexivity|]. split; [|reflexivity].
  exists (l_cats 1000 1 500). eexists. split; [apply level_valid; lra|]. split; [reflexivity|].
  intros same warn mem. unfold un_Validate, cr_Validate. rewrite (level_inputs 1000 1 500) by (lra || reflexivity). reflexivity.
Qed.
