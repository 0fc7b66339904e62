(** What is true of properties that are false in general. *)
From Coq Require Import ZArith Bool List Reals Lra Lia.
From Verif Require Import Num NumFacts ModelBase ModelCable ModelCatenary SpecCatenary ProofCatenary ProofReal ModelSolver ProofSolver
  ProofSolverTarget ProofSolverCases SpecCatenary3 ProofCatenary3 ModelElongation SpecElong ModelReload SpecReload SampleElongReal SampleReload ProofSpan ProofReloadRefuted ProofReloadCases
  ModelPolynomial ProofPolynomial ModelSagging SpecSagging ProofSagging ProofSaggers SpecFragments.
Import ListNotations.
Open Scope R_scope.

(** ** Polynomials whose vectors change between the calls *)
Section Poly.
Context {N : Num}.

Lemma unasked : forall (hs : list ((addr -> list N) * PolyCall N)) p p' b,
  (py_updated p = true -> b = true) -> poly_history p hs = Ok p' ->
  py_updated p' = true -> derived b (map snd hs) = true.
Proof.
  induction hs as [|(store, k) hs IH]; intros p p' b B H U; cbn [poly_history map derived snd] in H |- *.
  - injection H as <-. auto.
  - destruct (poly_call store p k) as [q| |] eqn:E; try discriminate H. cbn [obind] in H.
    destruct k; apply (IH q p'); auto; intros Q; cbn [poly_call] in E.
    + injection E as <-. discriminate Q.
    + destruct (Polynomial_Y store p x); try discriminate E. injection E as <-. auto.
Qed.

Lemma follows : forall c (hs : list ((addr -> list N) * PolyCall N)) p a, poly_history (Polynomial_new c) hs = Ok p ->
  py_coefficients p = CAddr a -> forall store, let fresh := Polynomial_new (CAddr a) in
  (forall x, Polynomial_Y store p x = Polynomial_Y store fresh x) /\
  (derived false (map snd hs) = false ->
   (forall x, omap fst (Polynomial_Slope store p x) = omap fst (Polynomial_Slope store fresh x)) /\
   (forall y n g, omap fst (Polynomial_X store p y n g) = omap fst (Polynomial_X store fresh y n g)) /\
   omap fst (Polynomial_Derivative store p) = omap fst (Polynomial_Derivative store fresh)).
Proof.
  intros c hs p a H A store fresh. split.
  - intros x. unfold Polynomial_Y, coeffs. rewrite A. reflexivity.
  - intros D. assert (U : py_updated p = false).
    { destruct (py_updated p) eqn:U; [|reflexivity]. rewrite <- D. symmetry. apply (unasked hs (Polynomial_new c) p false); auto. }
    assert (E : Polynomial_Update store p = Polynomial_Update store fresh).
    { unfold Polynomial_Update, UpdateDerivative, coeffs. rewrite U, A. reflexivity. }
    unfold Polynomial_Slope, Polynomial_X, Polynomial_Derivative. rewrite E. auto.
Qed.
End Poly.

(** ** The reloaded catenary *)
Lemma result_valid : forall (cats : Cats RNum) weights ks mem m r a e0 e1 w m' r', tidy_models mem ->
  forallb rl_quiet ks = true -> rl_run cats weights (mem, CatReloader_new) ks = Ok (m, r) ->
  last_of pickR_catenary ks None = Some a -> last_of pickR_reference ks None = Some e0 ->
  last_of pickR_reloaded ks None = Some e1 -> last_of pickR_weight ks None = Some w ->
  1 / 100 < tension_minimum (rehung (cats a) (weights w) (c3_tension_horizontal (cats a))) ->
  c3_Validate (cats a) = true -> weight_valid weights (Some w) = true ->
  rl_Update cats weights m r = Ok (true, (m', r')) ->
  (c3_Validate (rl_result r') = true <-> Vector3d_Magnitude (c3_spacing (cats a)) / 2 * Vector3d_Magnitude (weights w) <= c3_tension_horizontal (rl_result r')).
Proof.
  intros cats weights ks mem m r a e0 e1 w m' r' D Q E A B C W Min V WV U.
  destruct (history_balance cats weights ks mem m r a e0 e1 w m' r' D Q E A B C W Min U) as (AN & _).
  set (h := c3_tension_horizontal (rl_result r')) in *.
  assert (VV : c3_Validate (rl_result r') = c3_Validate (rehung (cats a) (weights w) h)).
  { specialize (AN Q3Validate). cbn [c3_answer] in AN. injection AN as ->. reflexivity. }
  rewrite VV. unfold rehung. split.
  - intros H. apply (cat_Validate _ _ _ H).
  - intros H. unfold c3_Validate in V. destruct (c3_inputs_valid (cats a)) eqn:I; [|discriminate V].
    unfold c3_inputs_valid in I. apply negb_true_iff in I. repeat (apply orb_false_iff in I; destruct I as [I ?]).
    unfold weight_valid in WV. apply andb_true_iff in WV. destruct WV as (WV & W3). apply andb_true_iff in WV. destruct WV as (W1 & W2).
    apply negb_true_iff in W2. apply negb_true_iff in W3. rn.
    repeat match goal with
    | H : Rleb _ _ = false |- _ => apply Rleb_false in H
    | H : Rltb _ _ = false |- _ => apply Rltb_false in H
    | H : Reqb _ _ = true |- _ => apply Reqb_true in H
    | H : negb (Reqb _ _) = false |- _ => apply negb_false_iff in H; apply Reqb_true in H
    end.
    apply cat_valid; [repeat split; rn; assumption || lra|rn; assumption| |exact H].
    assert (1 / 100 < h); [|lra]. eapply Rlt_le_trans; [exact Min|]. revert H. unfold tension_minimum, c2_ConstantMinimum.
    cbn [rehung c3_fresh c3_set_weight c3_set_tension c3_set_spacing c3_set_direction c3_spacing c3_weight]. rn. exact (fun H => H).
Qed.

(** ** The stopwatch *)
Lemma valid_usable : forall cks, let c := c3_run (@Catenary3d_default RNum) cks in c3_Validate c = true -> usable3 c.
Proof.
  intros cks c H. pose proof (history3 (N := RNum) cks Q3Validate) as E. cbv zeta in E. fold c in E. cbn [c3_answer] in E. injection E as E.
  rewrite H in E. symmetry in E.
  change (c3_Validate (c3_fresh ADPositive (c3_spacing c) (c3_tension_horizontal c) (c3_weight c)) = true) in E.
  destruct (cat_Validate _ _ _ E) as (O & P & _). exact (cat_usable _ _ _ O P).
Qed.

Lemma stopwatch_answer : forall cks ks s wave, let c := c3_run (@Catenary3d_default RNum) cks in
  sw_run (@Stopwatch_new RNum) ks = Ok s -> sw_catenary s = c -> sw_Validate s = true -> sw_units s <> USNull ->
  (- 2 ^ 30 <= wave < 2 ^ 30)%Z ->
  exists time v : R, omap fst (TimeReturn s wave) = Ok time /\ fst (VelocityWave s) = v /\ 0 < v /\
    ((0 < wave)%Z -> 0 < time) /\ time * v = 2 * IZR wave * c3_Length c.
Proof.
  intros cks ks s wave c H C V U W. unfold sw_Validate in V. rewrite C in V.
  pose proof (valid_usable cks V) as US. fold c in US.
  destruct (stopwatch_law cks ks s wave H C US U W) as (time & v & g & A & B & P & L & _). fold c in L.
  exists time, v. split; [exact A|]. split; [exact B|]. split; [exact P|]. split; [|exact L]. intros WP.
  assert (LP : 0 < c3_Length c).
  { assert (I : c3_current c) by (apply run3_current, default3_current).
    destruct (length_facts _ (d_current c I) (d_h_pos c I US) (d_w_pos c I US) (d_a_pos c I US)) as (LP & _). exact LP. }
  assert (WR : 0 < IZR wave) by (apply IZR_lt; exact WP).
  assert (0 < time * v) by (rewrite L; apply Rmult_lt_0_compat; [lra|exact LP]).
  destruct (Rlt_le_dec 0 time) as [Q|Q]; [exact Q|]. exfalso. change (F RNum) with R in *. nra.
Qed.

Lemma valid_case : exists (cats : Cats RNum) weights mem ks m r m' r', tidy_models mem /\ forallb rl_quiet ks = true /\
  rl_run cats weights (mem, CatReloader_new) ks = Ok (m, r) /\
  last_of pickR_catenary ks None = Some 0%Z /\ last_of pickR_reference ks None = Some 0%Z /\
  last_of pickR_reloaded ks None = Some 1%Z /\ last_of pickR_weight ks None = Some 0%Z /\
  1 / 100 < tension_minimum (rehung (cats 0%Z) (weights 0%Z) (c3_tension_horizontal (cats 0%Z))) /\
  c3_Validate (cats 0%Z) = true /\ weight_valid weights (Some 0%Z) = true /\
  rl_Update cats weights m r = Ok (true, (m', r')).
Proof.
  destruct (low_search false (l_memory false 70 (70 + 1 / 20)) (fun _ => eq_refl)) as (m & r & E & _ & _).
  exists (l_cats 1000 1 500), (l_weights 1), (l_memory false 70 (70 + 1 / 20)), l_reload_calls, (l_memory false 70 (70 + 1 / 20)), l_reloader, m, r.
  split; [apply l_tidy|]. split; [reflexivity|]. split; [reflexivity|]. do 4 (split; [reflexivity|]).
  split; [pose proof (long_minimum 500) as X; rewrite X; lra|].
  split; [apply level_valid; lra|]. split; [|exact E].
  unfold weight_valid, l_weights, hang. cbn [v3x v3y v3z]. rn. rewrite (proj2 (Reqb_true _ _) eq_refl), (proj2 (Rltb_false _ _)), (proj2 (Rleb_false _ _)) by lra. reflexivity.
Qed.
