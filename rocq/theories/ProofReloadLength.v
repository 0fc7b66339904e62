(** The unloaded length that a reloader reports. *)
From Coq Require Import ZArith Bool List Reals Lra.
From Verif Require Import Num NumFacts ModelBase ModelCatenary SpecCatenary ModelSolver ModelThermal ModelElongation SpecElong ProofElong ProofElongHistory ProofStrainer
  ModelReload SpecReload ProofReload ProofReloadGap ProofReloadSafe SampleElongReal SampleReload ProofSolverReal ProofSpan
  ProofReloadRefuted ProofReloadCases.
Import ListNotations.

Lemma reload_unloaded : forall (N : Num) (cats : Cats N) (weights : Weights N) ks mem m r a e0 b st, tidy_models mem ->
  forallb rl_quiet ks = true -> rl_run cats weights (mem, CatReloader_new) ks = Ok (m, r) ->
  last_of pickR_catenary ks None = Some a -> last_of pickR_reference ks None = Some e0 ->
  rl_Update cats weights m r = Ok (b, st) ->
  omap fst (rl_LengthUnloaded cats weights m r) =
  (if b then cable_length (cable_strain (mem e0)) (cable_strain (mem e0)) (cats a) (fofZ 0) else Ok (fofZ (-999999))).
Proof.
  intros N cats weights ks mem m r a e0 b (m1, r1) D Q E A B U.
  pose proof (tidy_tracked _ mem D) as T.
  assert (I : rinv cats weights mem (mem, CatReloader_new)) by (split; [apply mmates_refl, T|discriminate]).
  destruct (run_rinv cats weights ks mem _ _ I Q E) as (H & F0).
  cbn [snd CatReloader_new rl_catenary rl_reference rl_reloaded rl_weight] in F0. rewrite A, B in F0.
  pose proof (Update_fresh cats weights mem m r H) as V. rewrite U in V.
  destruct (rl_Update cats weights mem (fresh_of r)) as [(b', (m2, r2))| |]; cbn [orel] in V; try contradiction.
  destruct V as (_ & I1 & K1 & _). cbn [fst snd] in I1, K1. destruct I1 as (M1 & _). cbn [fst] in M1.
  unfold rkeys in K1. injection K1 as C1 C2 _ _.
  assert (G1 : rl_catenary r = Some a) by (apply (f_equal rl_catenary) in F0; exact F0).
  assert (G2 : rl_reference r = Some e0) by (apply (f_equal rl_reference) in F0; exact F0).
  unfold rl_LengthUnloaded. rewrite U. cbn [obind]. destruct b; [|reflexivity].
  rewrite C1, C2, G1, G2. cbn [un_set_catenary deref obind]. unfold un_LengthUnloaded.
  set (s := un_strainer _).
  transitivity (omap fst (LengthFinish m1 s)); [destruct (LengthFinish m1 s) as [(v, m9)| |]; reflexivity|].
  rewrite (LengthFinish_any m1 s e0 e0 (mmates_tracked _ _ M1) eq_refl eq_refl).
  unfold cable_length. rewrite <- !(mates_strain _ _ _ (M1 e0)). reflexivity.
Qed.

Open Scope R_scope.

(** The cable is not longer unloaded than under tension when the strain grows with the load. *)
Lemma strained_shorter : forall (l x0 x1 : R), 0 < l -> x1 <= x0 -> 0 < strained (N := RNum) l x0 x1 <= l.
Proof.
  intros l x0 x1 L X. unfold strained. cbn. replace (0 * 1) with 0 by ring. replace (1 * 1) with 1 by ring.
  destruct (Rltb (x1 - x0) 0) eqn:E.
  - apply Rltb_true in E. rewrite Rabs_left by exact E.
    assert (P : 0 < 1 + - (x1 - x0)) by lra. split; [apply Rdiv_lt_0_compat; lra|].
    apply Rmult_le_reg_r with (1 + - (x1 - x0)); [exact P|]. unfold Rdiv. rewrite Rmult_assoc, Rinv_l by lra. nra.
  - apply Rltb_false in E. nra.
Qed.

Lemma reload_shorter : forall (cats : Cats RNum) weights ks mem m r a e0 st x0 x1, tidy_models mem ->
  forallb rl_quiet ks = true -> rl_run cats weights (mem, CatReloader_new) ks = Ok (m, r) ->
  last_of pickR_catenary ks None = Some a -> last_of pickR_reference ks None = Some e0 ->
  rl_Update cats weights m r = Ok (true, st) ->
  cable_strain (mem e0) (c3_TensionAverage (cats a) 100) = Ok x0 -> cable_strain (mem e0) (0 : R) = Ok x1 ->
  x1 <= x0 -> 0 < c3_Length (cats a) ->
  exists l, omap fst (rl_LengthUnloaded cats weights m r) = Ok l /\ 0 < l <= c3_Length (cats a).
Proof.
  intros cats weights ks mem m r a e0 st x0 x1 D Q E A B U X0 X1 X L.
  exists (strained (N := RNum) (c3_Length (cats a)) x0 x1). split; [|apply strained_shorter; assumption].
  rewrite (reload_unloaded RNum cats weights ks mem m r a e0 true st D Q E A B U). unfold cable_length.
  rewrite X0. cbn [obind]. replace (fofZ (N := RNum) 0) with (0 : R) by (cbn; ring). rewrite X1. reflexivity.
Qed.

(** ** A case *)
Lemma reload_unloaded_case : exists (cats : Cats RNum) weights mem ks m r st x0 x1, tidy_models mem /\ forallb rl_quiet ks = true /\
  rl_run cats weights (mem, CatReloader_new) ks = Ok (m, r) /\
  last_of pickR_catenary ks None = Some 0%Z /\ last_of pickR_reference ks None = Some 0%Z /\
  last_of pickR_reloaded ks None = Some 1%Z /\ mem 0%Z <> mem 1%Z /\
  rl_Update cats weights m r = Ok (true, st) /\
  cable_strain (mem 0%Z) (c3_TensionAverage (cats 0%Z) 100) = Ok x0 /\ cable_strain (mem 0%Z) (0 : R) = Ok x1 /\
  x1 < x0 /\ 0 < c3_Length (cats 0%Z).
Proof.
  destruct (low_search false (l_memory false 70 (70 + 1 / 20)) (fun _ => eq_refl)) as (m & r & E & _ & _).
  assert (AV := average_range 1000 1 500 ltac:(lra) ltac:(lra) ltac:(lra)).
  exists (l_cats 1000 1 500), (l_weights 1), (l_memory false 70 (70 + 1 / 20)), l_reload_calls, (l_memory false 70 (70 + 1 / 20)), l_reloader, (m, r),
    ((c3_TensionAverage (l_cats 1000 1 500 0%Z) 100 : R) / 131072 + l_thermal 70), (l_thermal 70).
  split; [apply l_tidy|]. split; [reflexivity|]. split; [reflexivity|]. do 3 (split; [reflexivity|]).
  split; [unfold l_memory, l_model; cbn; intros X; inversion X; lra|]. split; [exact E|].
  assert (AV' : 500 <= c3_TensionAverage (l_cats 1000 1 500 0%Z) 100 < 65536).
  { destruct AV as (AV1 & AV2). split; [exact AV1|]. apply Rle_lt_trans with (2 * 500); [exact AV2|lra]. }
  change (F RNum) with R in *.
  split; [change (l_memory false 70 (70 + 1 / 20) 0%Z) with (l_model 70); unfold cable_strain; rewrite l_strain by lra; reflexivity|].
  split; [change (l_memory false 70 (70 + 1 / 20) 0%Z) with (l_model 70); unfold cable_strain, em_Strain; rewrite l_Update; cbn [obind];
    rewrite l_Strain_neg by lra; reflexivity|].
  split; [lra|].
  assert (L : (c3_Length (l_cats 1000 1 500 0%Z) : R) = glen 1000 (500 / 1)) by (apply level_length; lra).
  rewrite L. apply glen_pos; lra.
Qed.
