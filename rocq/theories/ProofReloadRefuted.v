(** Searches of the reloader that miss the answer, in real arithmetic. *)
From Coq Require Import ZArith Bool List Reals Lra Lia.
From Verif Require Import Num NumFacts ModelBase ModelCatenary SpecCatenary ProofCatenary ProofReal HypFacts ModelSolver ProofSolver
  ProofSolverReal ModelThermal ProofThermalCases ModelCable ModelElongation SpecElong ProofElong ProofElongHistory ProofStrainer
  ModelReload SpecReload ProofReload ProofReloadGap ProofSpan SampleElongReal SampleReload.
Import ListNotations.

Section Steps.
Context {N : Num}.

Lemma pass_exists : forall mem c w a b (p : Loop N) y, loop_about mem c w a b p ->
  length_gap (cable_strain (mem a)) (cable_strain (mem b)) c w (next_tension (lp_left p) (lp_right p)) = Ok y ->
  exists q, reload_pass p = Ok q /\ lp_current q = mkPoint2d (next_tension (lp_left p) (lp_right p)) y.
Proof.
  intros mem c w a b p y (A & _) G. unfold reload_pass.
  destruct (LengthDifference_gap mem c w a b (lp_search p) (next_tension (lp_left p) (lp_right p)) A) as (V & K).
  rewrite G in V. destruct (LengthDifference _ _) as [(v, s)| |]; cbn [obind omap fst] in *; try discriminate V.
  injection V as ->. destruct (next_points _ _ _) as [l r]. eexists. split; reflexivity.
Qed.

Lemma update_by : forall (cats : Cats N) weights (mem : Models N) a e0 e1 w yl yr (P : Loop N -> Prop),
  (forall x, tracked (mem x)) ->
  let g := length_gap (cable_strain (mem e0)) (cable_strain (mem e1)) (cats a) (weights w) in
  let xl := tension_minimum (rehung (cats a) (weights w) (c3_tension_horizontal (cats a))) in
  g xl = Ok yl -> g (fofZ 2 * xl)%num = Ok yr ->
  (forall s, loop_about mem (cats a) (weights w) e0 e1 (mkLoop (mkPoint2d xl yl) (mkPoint2d (fofZ 2 * xl)%num yr) Point2d_default 0 s) ->
     c3_tension_horizontal (se_catenary s) = (fofZ 2 * xl)%num ->
     exists q, reload_loop (Z.to_nat 101) (mkLoop (mkPoint2d xl yl) (mkPoint2d (fofZ 2 * xl)%num yr) Point2d_default 0 s) = Ok q /\ P q) ->
  exists m r q, rl_Update cats weights mem (rl_fresh (Some a) (Some e0) (Some e1) (Some w)) = Ok (reload_success q, (m, r)) /\
    rl_result r = se_catenary (lp_search q) /\ P q.
Proof.
  intros cats weights mem a e0 e1 w yl yr P T g xl GL GR L.
  unfold rl_Update. change (rl_updated (rl_fresh (N := N) (Some a) (Some e0) (Some e1) (Some w))) with false. cbv iota.
  unfold SolveReloaded. cbn [rl_fresh rl_set_weight rl_set_reloaded rl_set_reference rl_set_catenary rl_catenary rl_weight rl_reference rl_reloaded rl_strainer deref obind CatReloader_new].
  set (s0 := mkSearch mem _ _).
  assert (A0 : about mem (cats a) (weights w) e0 e1 s0) by (apply start_about, T).
  unfold reload_end. change (tension_minimum (se_catenary s0)) with xl.
  destruct (LengthDifference_gap _ _ _ _ _ s0 xl A0) as (V1 & K1). unfold g in GL, GR. rewrite GL in V1.
  destruct (LengthDifference s0 _) as [(y1, s1)| |]; cbn [obind omap fst] in *; try discriminate V1. injection V1 as ->.
  destruct (K1 _ _ eq_refl) as (A1 & _).
  destruct (LengthDifference_gap _ _ _ _ _ s1 (fofZ 2 * xl)%num A1) as (V2 & K2). rewrite GR in V2.
  destruct (LengthDifference s1 _) as [(y2, s2)| |]; cbn [obind omap fst] in *; try discriminate V2. injection V2 as ->.
  destruct (K2 _ _ eq_refl) as (A2 & H2).
  destruct (L s2) as (q & E & Q); [split; [exact A2|split; [exact GL|exact GR]]|exact H2|].
  rewrite E. cbn [obind]. eexists _, _, q. split; [reflexivity|]. split; [reflexivity|exact Q].
Qed.

End Steps.
Open Scope R_scope.

(** ** The samples *)

(** The models: the cable at the temperatures [t0] and [t1], not used or used before. *)
Definition l_memory (used : bool) (t0 t1 : R) : Models RNum := fun a =>
  let m t := if used then l_updated t else l_model t in
  if Z.eqb a 0 then m t0 else if Z.eqb a 1 then m t1 else ElongModel_new.

Definition l_calls (used : bool) (t : R) : list (EmCall RNum) :=
  l_setters t ++ (if used then [EmStrain (N := RNum) CTCombined (1 : RNum)] else []).

Lemma l_reached : forall used t, em_run ElongModel_new (l_calls used t) = Ok (if used then l_updated t else l_model t).
Proof.
  intros used t. unfold l_calls.
  assert (A : forall (cs ds : list (EmCall RNum)) m n, em_run m cs = Ok n -> em_run m (cs ++ ds) = em_run n ds).
  { induction cs as [|k cs IH]; intros ds m n E; cbn [em_run app] in *; [injection E as ->; reflexivity|].
    destruct (em_call m k); cbn [obind] in *; try discriminate E. apply IH, E. }
  rewrite (A _ _ _ _ (l_run t)). destruct used; [|reflexivity]. cbn [em_run em_call]. rewrite l_strain by lra. reflexivity.
Qed.

Lemma l_tidy : forall used t0 t1, tidy_models (l_memory used t0 t1).
Proof.
  intros used t0 t1 a. unfold l_memory. cbn zeta. destruct (Z.eqb a 0); [|destruct (Z.eqb a 1)].
  - exists (l_calls used t0). split; [destruct used; reflexivity|apply l_reached].
  - exists (l_calls used t1). split; [destruct used; reflexivity|apply l_reached].
  - exists []. split; reflexivity.
Qed.
Lemma l_tracked : forall used t0 t1 x, tracked (l_memory used t0 t1 x).
Proof. intros used t0 t1. apply tidy_tracked, l_tidy. Qed.

Lemma l_cable_strain : forall (used : bool) t (y : R), 0 < y < 65536 ->
  cable_strain (if used then l_updated t else l_model t) y = Ok (y / 131072 + l_thermal t : F RNum).
Proof.
  intros used t y H. unfold cable_strain. destruct used; [rewrite l_strain_again by exact H|rewrite l_strain by exact H]; reflexivity.
Qed.

(** The reference catenary and the weight. *)
Definition l_cats (a w h : R) : Cats RNum := fun _ => level a w h.
Definition l_weights (w : R) : Weights RNum := fun _ => hang w.
Definition l_reloader : CatReloader RNum := rl_fresh (Some 0%Z) (Some 0%Z) (Some 1%Z) (Some 0%Z).

(** The gap of these samples, the difference of temperature 0 or [d]. *)
Definition l_gap (a w h0 d h : R) : R :=
  glen a (h / w) - strained (N := RNum) (glen a (h0 / w)) (c3_TensionAverage (level a w h0) 100 / 131072)
                     (c3_TensionAverage (level a w h) 100 / 131072 + 1 / 100000 * d).

Lemma average_range : forall a w h, 0 < a -> 0 < w -> a / 2 * w <= h ->
  h <= c3_TensionAverage (level a w h) 100 <= 2 * h.
Proof.
  intros a w h Ha Hw H. assert (P : 0 < a / 2 * w) by nra. destruct (level_average a w Ha Hw h) as (A & B); [lra|].
  split; [exact A|]. eapply Rle_trans; [exact B|]. replace (2 * h) with (h * 2) at 2 by ring. apply Rmult_le_compat_l; [lra|]. apply cosh_small.
  split; [apply Rlt_le, Rdiv_lt_0_compat; nra|]. apply Rmult_le_reg_r with (2 * h); [lra|]. replace (a * w / (2 * h) * (2 * h)) with (a * w) by (field; lra).
  replace (a * w) with (2 * (a / 2 * w)) by field. lra.
Qed.

Lemma strained_shift : forall L x0 x1 t : R, strained (N := RNum) L (x0 + t) (x1 + t) = strained (N := RNum) L x0 x1.
Proof. intros L x0 x1 t. unfold strained. rn. replace (x1 + t - (x0 + t)) with (x1 - x0) by ring. reflexivity. Qed.

Lemma sample_gap : forall used a w h0 d h, 0 < a -> 0 < w -> 0 < h0 -> 0 < h ->
  c3_TensionAverage (level a w h0) 100 < 65536 -> c3_TensionAverage (level a w h) 100 < 65536 ->
  length_gap (cable_strain (l_memory used 70 (70 + d) 0%Z)) (cable_strain (l_memory used 70 (70 + d) 1%Z)) (l_cats a w h0 0%Z) (l_weights w 0%Z) (h : RNum) =
  Ok (l_gap a w h0 d h : F RNum).
Proof.
  intros used a w h0 d h Ha Hw H0 H B0 B. unfold length_gap, cable_length. unfold l_cats, l_weights.
  change (rehung (level a w h0) (hang w) (h : RNum)) with (level a w h).
  change (l_memory used 70 (70 + d) 0%Z) with (if used then l_updated 70 else l_model 70).
  change (l_memory used 70 (70 + d) 1%Z) with (if used then l_updated (70 + d) else l_model (70 + d)).
  rewrite l_cable_strain by (split; [apply Rlt_le_trans with h0; [lra|apply (level_average a w Ha Hw h0 H0)]|exact B0]).
  cbn [obind].
  rewrite l_cable_strain by (split; [apply Rlt_le_trans with h; [lra|apply (level_average a w Ha Hw h H)]|exact B]).
  cbn [obind]. f_equal. unfold l_gap.
  rewrite (level_length a w Ha Hw h H), (level_length a w Ha Hw h0 H0). rn. f_equal.
  unfold strained. rn. unfold l_thermal.
  replace (c3_TensionAverage (level a w h) 100 / 131072 + 1 / 100000 * (70 + d - 70) - (c3_TensionAverage (level a w h0) 100 / 131072 + 1 / 100000 * (70 - 70)))
    with (c3_TensionAverage (level a w h) 100 / 131072 + 1 / 100000 * d - c3_TensionAverage (level a w h0) 100 / 131072) by ring.
  reflexivity.
Qed.

(** Small changes of the strain. *)
Lemma strained_near : forall L x0 x1 e : R, 0 <= L -> Rabs (x1 - x0) <= e -> e <= 1 ->
  L * (1 - e) <= strained (N := RNum) L x0 x1 <= L * (1 + e).
Proof.
  intros L x0 x1 e HL H He. unfold strained. rn. set (d := x1 - x0) in *. destruct (Rltb d 0) eqn:B.
  - apply Rltb_true in B. rewrite Rabs_left in * by exact B. assert (P : 0 < 1 + - d) by lra.
    split.
    + apply Rmult_le_reg_r with (1 + - d); [exact P|]. replace (L / (1 + - d) * (1 + - d)) with L by (field; lra).
      rewrite Rmult_assoc. rewrite <- (Rmult_1_r L) at 2. apply Rmult_le_compat_l; [exact HL|]. nra.
    + apply Rle_trans with L; [|nra]. apply Rmult_le_reg_r with (1 + - d); [exact P|]. replace (L / (1 + - d) * (1 + - d)) with L by (field; lra). nra.
  - apply Rltb_false in B. rewrite Rabs_right in H by lra. nra.
Qed.

Lemma strained_ge : forall L x0 x1 : R, 0 <= L -> x0 <= x1 -> strained (N := RNum) L x0 x1 = L * (1 + (x1 - x0)).
Proof. intros L x0 x1 HL H. unfold strained. rn. rewrite (proj2 (Rltb_false _ _)) by lra. reflexivity. Qed.

Lemma glen_le : forall a k, 0 < a -> a / 2 <= k -> a <= glen a k <= 2 * a.
Proof.
  intros a k Ha Hk. rewrite glen_shc by lra. set (z := a / (2 * k)).
  assert (Z : 0 < z <= 1). { unfold z. split; [apply Rdiv_lt_0_compat; lra|]. apply Rmult_le_reg_r with (2 * k); [lra|]. unfold Rdiv. rewrite Rmult_assoc, Rinv_l; lra. }
  assert (S1 := sinh_gt z (proj1 Z)). assert (S2 := sinh_cosh_lt z (proj1 Z)). assert (C := cosh_small z ltac:(lra)).
  assert (Q : 1 <= sinh z / z <= 2).
  { split; (apply Rmult_le_reg_r with z; [lra|]); unfold Rdiv; rewrite Rmult_assoc, Rinv_l by lra; nra. }
  nra.
Qed.

(** ** The samples are valid *)
Ltac decide_R := repeat match goal with
  | |- context [Rltb ?x ?y] => rewrite (proj2 (Rltb_false x y)) by lra
  | |- context [Rleb ?x ?y] => rewrite (proj2 (Rleb_false x y)) by lra
  end.

Lemma l_part_valid : sk_Validate (sk_set_base (Some l_comp)) = true.
Proof.
  unfold sk_Validate. cbn [sk_set_base sk_base l_comp cc_expansion cc_creep cc_loadstrain cc_limit_creep cc_limit_loadstrain
    cc_modulus_compression cc_modulus_tension cc_scale_x cc_scale_y l_line length Nat.eqb]. rn. rewrite ?flit_R. simpl powerRZ. decide_R. reflexivity.
Qed.

Lemma l_cable_valid : sg_Validate (sg_set_base (Some l_cable)) = Ok true.
Proof.
  unfold sg_Validate. change (sg_base (sg_set_base (Some l_cable))) with (Some l_cable). cbv iota. unfold sg_core_on, sg_shell_on.
  change (sg_core (sg_set_base (Some l_cable))) with (sk_set_base (Some r_none)).
  change (sg_shell (sg_set_base (Some l_cable))) with (sk_set_base (Some l_comp)).
  rewrite l_off, l_on, l_part_valid. cbn [obind andb negb]. f_equal. unfold Cable_Validate. cbn [l_cable cb_area cb_diameter cb_weight cb_strength cb_temperature].
  rn. decide_R. reflexivity.
Qed.

Lemma l_valid : forall t : R, -100 <= t -> em_Validate false (l_model t) = Ok (true, l_updated t).
Proof.
  intros t H. unfold em_Validate. change (em_cable (l_model t)) with (Some (sg_set_base (Some l_cable))). cbv iota. rewrite l_cable_valid. cbn [obind].
  change (em_state (l_model t)) with (r_state PTLoadStrain t). change (em_stretch (l_model t)) with (r_stretch PTLoadStrain 0).
  assert (S1 : CableState_Validate (r_state PTLoadStrain t) = true).
  { unfold CableState_Validate. cbn [r_state st_temperature st_type ptype_eqb]. rn. decide_R. reflexivity. }
  assert (S2 : StretchState_Validate (r_stretch PTLoadStrain 0) = true).
  { unfold StretchState_Validate. cbn [r_stretch ss_load]. rn. decide_R. reflexivity. }
  rewrite S1, S2. cbn [andb]. rewrite l_Update. cbn [obind].
  change (em_cable (l_updated t)) with (Some (sg_set_base (Some l_cable))). cbn [deref obind].
  unfold sg_on, sg_core_on, sg_shell_on.
  change (sg_core (sg_set_base (Some l_cable))) with (sk_set_base (Some r_none)).
  change (sg_shell (sg_set_base (Some l_cable))) with (sk_set_base (Some l_comp)).
  rewrite l_off, l_on. cbn [obind orb].
  rewrite l_core_on by reflexivity. cbn [obind component_model_valid].
  rewrite l_shell_on by reflexivity. cbn [obind component_model_valid].
  change (em_shell (em_with_core (l_updated t) (em_core (l_updated t)))) with (l_shell t).
  assert (V : cm_Validate false (l_shell t) = Ok (true, l_shell t)).
  { unfold cm_Validate. assert (IV : cm_inputs_valid (l_shell t) = true).
    { unfold cm_inputs_valid. change (cm_component (l_shell t)) with (Some (sk_set_base (Some l_comp))). change (cm_state (l_shell t)) with (Some (r_state PTLoadStrain t)).
      change (cm_stretch (l_shell t)) with (Some (r_stretch PTLoadStrain 0)). change (cm_tref (l_shell t)) with (Some (70 : RNum)).
      cbv iota. rewrite l_part_valid, S1, S2. cbn [andb]. rn. decide_R. reflexivity. }
    rewrite IV. unfold cm_Update. change (cm_upd_stretch (l_shell t)) with true. cbn [obind]. change (cm_upd_state (l_shell t)) with true. cbn [obind].
    change (cm_base (l_shell t)) with (Ok (A := CableComponent RNum) l_comp). cbn [obind polynomials_valid]. reflexivity. }
  rewrite V. reflexivity.
Qed.

Lemma sample_Validate : forall a w h0 d mem, 0 < a -> 0 < w -> a / 2 * w <= h0 -> -100 <= d -> (forall x, mem x = l_memory false 70 (70 + d) x) ->
  exists mem', (forall x, mem' x = l_memory true 70 (70 + d) x) /\
  rl_Validate (l_cats a w h0) (l_weights w) false mem l_reloader = rl_Update (l_cats a w h0) (l_weights w) mem' l_reloader.
Proof.
  intros a w h0 d mem Ha Hw H Hd M. exists (put (put mem 0 (l_updated 70)) 1 (l_updated (70 + d))). split.
  { intros x. unfold put, l_memory. cbn zeta. rewrite (Z.eqb_sym 1 x), (Z.eqb_sym 0 x). destruct (Z.eqb x 1) eqn:E1.
    - apply Z.eqb_eq in E1. subst x. reflexivity.
    - destruct (Z.eqb x 0) eqn:E0; [reflexivity|]. rewrite M. unfold l_memory. cbn zeta. rewrite E0, E1. reflexivity. }
  unfold rl_Validate. unfold l_reloader at 1 2 3. cbn [rl_fresh rl_set_weight rl_set_reloaded rl_set_reference rl_set_catenary rl_catenary rl_weight rl_reference rl_reloaded CatReloader_new].
  unfold l_cats at 1. rewrite (level_valid a w Ha Hw h0 H). unfold model_valid. rewrite M. change (l_memory false 70 (70 + d) 0%Z) with (l_model 70).
  rewrite l_valid by lra. cbn [obind]. change (put mem 0 (l_updated 70) 1%Z) with (mem 1%Z). rewrite M. change (l_memory false 70 (70 + d) 1%Z) with (l_model (70 + d)).
  rewrite l_valid by lra. cbn [obind andb]. change (rl_weight l_reloader) with (Some 0%Z).
  assert (WV : weight_valid (l_weights w) (Some 0%Z) = true).
  { unfold weight_valid, l_weights, hang. cbn [v3x v3y v3z]. rn. rewrite (proj2 (Reqb_true 0 0)) by reflexivity. decide_R. reflexivity. }
  rewrite WV. reflexivity.
Qed.

(** ** Short searches *)
Lemma off_01 : forall s : Loop RNum, Rabs (p2x (lp_left s) - p2x (lp_right s)) <= 1 / 100 -> reload_on s = false.
Proof.
  intros s H. unfold reload_on. apply andb_false_iff. left. rn. rewrite ?flit_R. simpl powerRZ. apply Rltb_false. lra.
Qed.
Lemma on_01 : forall s : Loop RNum, 1 / 100 < Rabs (p2x (lp_left s) - p2x (lp_right s)) -> (lp_iter s < 100)%Z -> reload_on s = true.
Proof.
  intros s H I. unfold reload_on. apply andb_true_iff. split; [|apply Z.ltb_lt; exact I]. rn. rewrite ?flit_R. simpl powerRZ. apply Rltb_true. lra.
Qed.

Section Search.
Variables (cats : Cats RNum) (weights : Weights RNum) (mem : Models RNum) (a e0 e1 w : Z).
Hypothesis T : forall x, tracked (mem x).
Let g : R -> outcome R := length_gap (N := RNum) (cable_strain (mem e0)) (cable_strain (mem e1)) (cats a) (weights w).
Let xl : R := tension_minimum (rehung (cats a) (weights w) (c3_tension_horizontal (cats a))).

Lemma F2 : (fofZ (N := RNum) 2 * xl)%num = 2 * xl.
Proof. rn. reflexivity. Qed.
Lemma from2 : forall yr, g (2 * xl) = Ok yr -> g (fofZ (N := RNum) 2 * xl)%num = Ok yr.
Proof. intros yr H. rewrite F2. exact H. Qed.

Lemma no_pass : forall yl yr : R, 0 <= xl <= 1 / 100 -> g xl = Ok yl -> g (2 * xl) = Ok yr ->
  exists m r, rl_Update cats weights mem (rl_fresh (Some a) (Some e0) (Some e1) (Some w)) = Ok (true, (m, r)) /\
    (c3_tension_horizontal (rl_result r) : R) = 2 * xl.
Proof.
  intros yl yr H GL GR.
  destruct (update_by (N := RNum) cats weights mem a e0 e1 w yl yr
    (fun q => reload_success q = true /\ (c3_tension_horizontal (se_catenary (lp_search q)) : R) = 2 * xl) T GL (from2 _ GR)) as (m & r & q & E & R1 & S & R2).
  - intros s L X. fold xl in L, X |- *. rewrite F2 in L, X |- *. eexists. split.
    + change (Z.to_nat 101) with (Datatypes.S (Z.to_nat 100)). cbn [reload_loop]. rewrite off_01; [reflexivity|].
      cbn [lp_left lp_right p2x]. fold xl. rn. rewrite Rabs_left1 by lra. lra.
    + split; [|exact X]. unfold reload_success. cbn [lp_iter lp_current]. change (0 <? 100)%Z with true. cbv iota.
      unfold Point2d_default. cbn [p2y]. rn. rewrite ?flit_R, ?ferr_R. simpl powerRZ. apply Rltb_true. lra.
  - exists m, r. rewrite E, S. split; [reflexivity|]. rewrite R1. exact R2.
Qed.

Lemma one_pass : forall (yl yr x y : R) l' r', 1 / 100 < xl -> g xl = Ok yl -> g (2 * xl) = Ok yr ->
  (next_tension (N := RNum) (mkPoint2d (N := RNum) xl yl) (mkPoint2d (N := RNum) (2 * xl) yr) : R) = x -> g x = Ok y ->
  next_points (N := RNum) (mkPoint2d (N := RNum) xl yl) (mkPoint2d (N := RNum) (2 * xl) yr) (mkPoint2d (N := RNum) x y) = (l', r') ->
  Rabs (p2x l' - p2x r') <= 1 / 100 -> y < 1 / 10 ->
  exists m r, rl_Update cats weights mem (rl_fresh (Some a) (Some e0) (Some e1) (Some w)) = Ok (true, (m, r)) /\
    (c3_tension_horizontal (rl_result r) : R) = x /\ twin_h (rl_result r) (rehung (cats a) (weights w) x).
Proof.
  intros yl yr x y l' r' Hx GL GR NX GX NP W Y.
  destruct (update_by (N := RNum) cats weights mem a e0 e1 w yl yr
    (fun q => reload_success q = true /\ (c3_tension_horizontal (se_catenary (lp_search q)) : R) = x /\
              twin (se_catenary (lp_search q)) (rehung (cats a) (weights w) (c3_tension_horizontal (cats a)))) T GL (from2 _ GR)) as (m & r & q & E & R1 & S & R2 & R3).
  - intros s L X. fold xl in L, X |- *. rewrite F2 in L, X |- *.
    set (p := mkLoop _ _ _ _ _) in *.
    assert (NX' : next_tension (lp_left p) (lp_right p) = x) by exact NX.
    destruct (pass_exists _ _ _ _ _ p y L) as (q & P & C). { rewrite NX'. exact GX. }
    destruct (pass_about _ _ _ _ _ _ _ L P) as ((A & _) & _ & _ & TH & IT & PT).
    exists q. split.
    + change (Z.to_nat 101) with (Datatypes.S (Datatypes.S (Z.to_nat 99))). cbn [reload_loop]. rewrite on_01.
      2: { cbn [p lp_left lp_right p2x]. rewrite Rabs_left by lra. lra. }
      2: { cbn [p lp_iter]. lia. }
      rewrite P. cbn [obind]. rewrite off_01; [reflexivity|]. rewrite C, NX' in PT.
      assert (PT' : (lp_left q, lp_right q) = (l', r')) by (rewrite PT; exact NP). injection PT' as -> ->. exact W.
    + split; [|split; [rewrite TH, C; exact NX|apply A]]. unfold reload_success. rewrite IT, C. change (lp_iter p + 1 <? 100)%Z with true. cbv iota. cbn [p2y].
      rn. rewrite ?flit_R. simpl powerRZ. apply Rltb_true. lra.
  - exists m, r. rewrite E, S. split; [reflexivity|]. rewrite R1. split; [exact R2|]. split; [|exact R2].
    eapply twin_trans; [exact R3|apply rehung_twin].
Qed.

(** A gap of exactly 0 at the first bisection: the search does not go on. *)
Lemma stuck : forall (yl yr : R), 1 / 100 < xl -> g xl = Ok yl -> g (2 * xl) = Ok yr -> 0 < yl -> yr < 0 -> g (3 / 2 * xl) = Ok 0 ->
  exists m r, rl_Update cats weights mem (rl_fresh (Some a) (Some e0) (Some e1) (Some w)) = Ok (false, (m, r)).
Proof.
  intros yl yr Hx GL GR PL PR G0.
  destruct (update_by (N := RNum) cats weights mem a e0 e1 w yl yr (fun q => reload_success q = false) T GL (from2 _ GR)) as (m & r & q & E & _ & S).
  - intros s L _. fold xl in L |- *. rewrite F2 in L |- *.
    set (p := mkLoop _ _ _ _ _) in *.
    assert (K : forall fuel (q : Loop RNum), lp_left q = lp_left p -> lp_right q = lp_right p -> loop_about mem (cats a) (weights w) e0 e1 q ->
      (0 <= lp_iter q <= 100)%Z -> (101 <= lp_iter q + Z.of_nat fuel)%Z ->
      exists q', reload_loop fuel q = Ok q' /\ lp_iter q' = 100%Z).
    { induction fuel as [|fuel IH]; intros q El Er Lq B F; [lia|]. cbn [reload_loop].
      destruct (Z.eq_dec (lp_iter q) 100) as [H100|H100].
      - exists q. split; [|exact H100]. unfold reload_on. rewrite H100. change (100 <? 100)%Z with false. rewrite andb_false_r. reflexivity.
      - rewrite on_01; [| |lia].
        2: { rewrite El, Er. cbn [p lp_left lp_right p2x]. rewrite Rabs_left by lra. lra. }
        assert (NX : next_tension (lp_left q) (lp_right q) = 3 / 2 * xl).
        { rewrite El, Er. unfold next_tension. cbn [p lp_left lp_right p2x p2y]. rn. rewrite (proj2 (Rltb_true 0 yl)), (proj2 (Rltb_true yr 0)) by lra. cbn [andb]. lra. }
        destruct (pass_exists _ _ _ _ _ q 0 Lq) as (q' & P & C). { rewrite NX. exact G0. }
        destruct (pass_about _ _ _ _ _ _ _ Lq P) as (Lq' & _ & _ & _ & IT & PT). rewrite P. cbn [obind].
        assert (PT' : next_points (lp_left q) (lp_right q) (lp_current q') = (lp_left q, lp_right q)).
        { rewrite C, NX, El, Er. unfold next_points. cbn [p lp_left lp_right p2x p2y]. rn.
          rewrite (proj2 (Rltb_false (3 / 2 * xl) xl)), (proj2 (Rltb_true xl (3 / 2 * xl))), (proj2 (Rltb_true (3 / 2 * xl) (2 * xl))) by lra.
          cbn [andb]. rewrite !(proj2 (Rltb_false 0 0)) by lra. reflexivity. }
        rewrite PT' in PT. injection PT as P1 P2.
        apply IH; [rewrite P1; exact El|rewrite P2; exact Er|exact Lq'|lia|lia]. }
    destruct (K (Z.to_nat 101) p eq_refl eq_refl L) as (q' & E & I).
    + cbn [p lp_iter]. lia.
    + cbn [p lp_iter]. rewrite Z2Nat.id by lia. lia.
    + exists q'. split; [exact E|]. unfold reload_success. rewrite I. reflexivity.
  - exists m, r. rewrite E, S. reflexivity.
Qed.

End Search.

(** ** The reference catenary and the same cable, far from the answer *)
Lemma abs_bounds : forall x e, Rabs x <= e -> - e <= x <= e.
Proof. intros x e H. unfold Rabs in H. destruct (Rcase_abs x); lra. Qed.

Lemma cosh_two : forall z, 0 <= z <= 2 -> cosh z <= 5.
Proof.
  intros z H. unfold cosh. assert (exp z <= exp 2) by (destruct (Req_dec z 2) as [->|N]; [lra|left; apply exp_increasing; lra]).
  assert (exp (- z) <= 1) by (rewrite <- exp_0; destruct (Req_dec z 0) as [->|N]; [rewrite Ropp_0; lra|left; apply exp_increasing; lra]).
  assert (E : exp 2 = exp 1 * exp 1) by (rewrite <- exp_plus; f_equal; ring). assert (E1 := exp_1). assert (P := exp_pos 1). nra.
Qed.

Definition thin : R := 39 / 100000.
Definition thin_h : R := 55 * thin.

Lemma thin_gap : forall h, 50 * thin <= h <= 100 * thin -> exists e, Rabs e <= 1 / 1000 /\
  l_gap 100 thin thin_h 0 h = glen 100 (h / thin) - glen 100 55 + e.
Proof.
  intros h H. unfold l_gap. assert (P : thin_h / thin = 55) by (unfold thin_h, thin; field). rewrite P.
  assert (A1 := average_range 100 thin h ltac:(lra) ltac:(unfold thin; lra) ltac:(lra)).
  assert (A2 := average_range 100 thin thin_h ltac:(lra) ltac:(unfold thin; lra) ltac:(unfold thin_h, thin; lra)).
  set (t1 := c3_TensionAverage _ _) in *. set (t0 := c3_TensionAverage (level 100 thin thin_h) 100) in *.
  assert (G := glen_le 100 55 ltac:(lra) ltac:(lra)).
  assert (S := strained_near (glen 100 55) (t0 / 131072) (t1 / 131072 + 1 / 100000 * 0) (1 / 1000000) ltac:(lra)).
  set (u := strained _ _ _) in *. exists (glen 100 55 - u). split; [|ring].
  assert (Q : glen 100 55 * (1 - 1 / 1000000) <= u <= glen 100 55 * (1 + 1 / 1000000)).
  { apply S; [|lra]. unfold thin_h, thin in *. apply Rabs_le. change (F RNum) with R in *. lra. }
  apply Rabs_le. change (F RNum) with R in *. lra.
Qed.

Lemma thin_tensions : forall h, 50 * thin <= h <= 100 * thin -> c3_TensionAverage (level 100 thin h) 100 < 65536.
Proof.
  intros h H. assert (A1 := average_range 100 thin h ltac:(lra) ltac:(unfold thin; lra) ltac:(lra)). unfold thin in H. lra.
Qed.

Lemma same_memory_tracked : forall used d mem, (forall x, mem x = l_memory used 70 (70 + d) x) -> forall x, tracked (mem x).
Proof. intros used d mem M x. rewrite M. apply l_tracked. Qed.

Lemma thin_search : forall used mem, (forall x, mem x = l_memory used 70 (70 + 0) x) ->
  exists m r, rl_Update (l_cats 100 thin thin_h) (l_weights thin) mem l_reloader = Ok (true, (m, r)) /\
    (c3_tension_horizontal (rl_result r) : R) = 75 * thin.
Proof.
  intros used mem M.
  assert (TH : thin = 39 / 100000) by reflexivity.
  assert (G : forall h, 50 * thin <= h <= 100 * thin ->
    length_gap (cable_strain (mem 0%Z)) (cable_strain (mem 1%Z)) (l_cats 100 thin thin_h 0%Z) (l_weights thin 0%Z) (h : RNum) = Ok (l_gap 100 thin thin_h 0 h : F RNum)).
  { intros h H. rewrite !M. apply sample_gap; try lra.
    - unfold thin_h; lra.
    - apply thin_tensions. unfold thin_h; lra.
    - apply thin_tensions. exact H. }
  assert (XL : (tension_minimum (rehung (l_cats 100 thin thin_h 0%Z) (l_weights thin 0%Z) (c3_tension_horizontal (l_cats 100 thin thin_h 0%Z))) : R) = 50 * thin).
  { change (rehung (l_cats 100 thin thin_h 0%Z) (l_weights thin 0%Z) (c3_tension_horizontal (l_cats 100 thin thin_h 0%Z))) with (level 100 thin thin_h).
    rewrite level_minimum by lra. lra. }
  destruct (thin_gap (50 * thin) ltac:(lra)) as (el & El & Gl). destruct (thin_gap (100 * thin) ltac:(lra)) as (er & Er & Gr).
  destruct (thin_gap (75 * thin) ltac:(lra)) as (em & Em & Gm).
  replace (50 * thin / thin) with 50 in Gl by (rewrite TH; field). replace (100 * thin / thin) with 100 in Gr by (rewrite TH; field).
  replace (75 * thin / thin) with 75 in Gm by (rewrite TH; field).
  assert (D1 := glen_gap 100 50 55 ltac:(lra) ltac:(lra) ltac:(lra)). assert (D2 := glen_gap 100 55 75 ltac:(lra) ltac:(lra) ltac:(lra)).
  assert (D3 := glen_gap 100 55 100 ltac:(lra) ltac:(lra) ltac:(lra)).
  apply abs_bounds in El. apply abs_bounds in Er. apply abs_bounds in Em.
  assert (YL : 0 < l_gap 100 thin thin_h 0 (50 * thin)) by lra. assert (YR : l_gap 100 thin thin_h 0 (100 * thin) < 0) by lra.
  assert (YM : l_gap 100 thin thin_h 0 (75 * thin) < 0) by lra.
  destruct (one_pass (l_cats 100 thin thin_h) (l_weights thin) mem 0 0 1 0 (same_memory_tracked _ _ _ M)
    (l_gap 100 thin thin_h 0 (50 * thin)) (l_gap 100 thin thin_h 0 (100 * thin)) (75 * thin) (l_gap 100 thin thin_h 0 (75 * thin))
    (mkPoint2d (N := RNum) (50 * thin) (l_gap 100 thin thin_h 0 (50 * thin))) (mkPoint2d (N := RNum) (75 * thin) (l_gap 100 thin thin_h 0 (75 * thin))))
    as (m & r & E & H & _).
  - rewrite XL. lra.
  - rewrite XL. apply G. lra.
  - rewrite XL. replace (2 * (50 * thin)) with (100 * thin) by ring. apply G. lra.
  - rewrite XL. unfold next_tension. cbn [p2x p2y]. rn. rewrite (proj2 (Rltb_true _ _) YL), (proj2 (Rltb_true _ _) YR). cbn [andb]. lra.
  - apply G. lra.
  - rewrite XL. unfold next_points. cbn [p2x p2y]. rn.
    rewrite (proj2 (Rltb_false (75 * thin) (50 * thin))), (proj2 (Rltb_true (50 * thin) (75 * thin))), (proj2 (Rltb_true (75 * thin) (2 * (50 * thin)))) by lra.
    cbn [andb]. rewrite (proj2 (Rltb_true _ _) YM). reflexivity.
  - cbn [p2x]. rewrite Rabs_left by lra. lra.
  - lra.
  - exists m, r. split; [exact E|exact H].
Qed.

Lemma thin_miss : forall used,
  exists y, length_gap (cable_strain (l_memory used 70 (70 + 0) 0%Z)) (cable_strain (l_memory used 70 (70 + 0) 1%Z)) (l_cats 100 thin thin_h 0%Z) (l_weights thin 0%Z) (75 * thin : RNum) = Ok (y : F RNum) /\ y < - 5.
Proof.
  intros used. exists (l_gap 100 thin thin_h 0 (75 * thin)). assert (TH : thin = 39 / 100000) by reflexivity. split.
  - apply sample_gap; try lra; try (unfold thin_h; lra); apply thin_tensions; unfold thin_h; lra.
  - destruct (thin_gap (75 * thin) ltac:(lra)) as (em & Em & Gm). replace (75 * thin / thin) with 75 in Gm by (rewrite TH; field).
    assert (D2 := glen_gap 100 55 75 ltac:(lra) ltac:(lra) ltac:(lra)). apply abs_bounds in Em. lra.
Qed.
Lemma thin_zero : forall used,
  length_gap (cable_strain (l_memory used 70 (70 + 0) 0%Z)) (cable_strain (l_memory used 70 (70 + 0) 1%Z)) (l_cats 100 thin thin_h 0%Z) (l_weights thin 0%Z) (thin_h : RNum) = Ok (0 : F RNum).
Proof.
  intros used. assert (TH : thin = 39 / 100000) by reflexivity.
  rewrite sample_gap; try lra; try (unfold thin_h; lra); try (apply thin_tensions; unfold thin_h; lra).
  f_equal. unfold l_gap. rewrite strained_ge; [req; ring| |lra]. left. apply glen_pos; [lra|]. unfold thin_h. rewrite TH. lra.
Qed.

(** ** The answer in the middle of the first bracket *)
Lemma over_1 : forall x, x / 1 = x.
Proof. intros x. field. Qed.

Lemma long_gap : forall used mem h0 d h, (forall x, mem x = l_memory used 70 (70 + d) x) -> 500 <= h0 <= 1000 -> 400 <= h <= 1000 ->
  length_gap (cable_strain (mem 0%Z)) (cable_strain (mem 1%Z)) (l_cats 1000 1 h0 0%Z) (l_weights 1 0%Z) (h : RNum) = Ok (l_gap 1000 1 h0 d h : F RNum).
Proof.
  intros used mem h0 d h M H0 H. rewrite !M. 
  assert (B : forall x, 400 <= x <= 1000 -> c3_TensionAverage (level 1000 1 x) 100 < 65536).
  { intros x Hx. destruct (level_average 1000 1 ltac:(lra) ltac:(lra) x ltac:(lra)) as (_ & B).
    assert (Z : 0 <= 1000 * 1 / (2 * x) <= 2).
    { split; [apply Rlt_le, Rdiv_lt_0_compat; lra|]. apply Rmult_le_reg_r with (2 * x); [lra|]. replace (1000 * 1 / (2 * x) * (2 * x)) with 1000 by (field; lra). lra. }
    assert (C := cosh_two _ Z). assert (C1 := cosh_ge_1 (1000 * 1 / (2 * x))). nra. }
  apply sample_gap; try lra; apply B; lra.
Qed.

Lemma long_minimum : forall h0, (tension_minimum (rehung (l_cats 1000 1 h0 0%Z) (l_weights 1 0%Z) (c3_tension_horizontal (l_cats 1000 1 h0 0%Z))) : R) = 500.
Proof.
  intros h0. change (rehung (l_cats 1000 1 h0 0%Z) (l_weights 1 0%Z) (c3_tension_horizontal (l_cats 1000 1 h0 0%Z))) with (level 1000 1 h0).
  rewrite level_minimum by lra. lra.
Qed.

Lemma middle_gap : forall h0 h, 500 <= h0 <= 1000 -> 500 <= h <= 1000 ->
  exists e, Rabs e <= 32 /\ (h0 <= h -> 2 * h0 - h <= 500 -> -8 <= - e) /\ l_gap 1000 1 h0 0 h = glen 1000 h - glen 1000 h0 + e.
Proof.
  intros h0 h H0 H. unfold l_gap. rewrite !over_1.
  assert (A1 := average_range 1000 1 h ltac:(lra) ltac:(lra) ltac:(lra)).
  assert (A2 := average_range 1000 1 h0 ltac:(lra) ltac:(lra) ltac:(lra)).
  set (t1 := c3_TensionAverage (level 1000 1 h) 100) in *. set (t0 := c3_TensionAverage (level 1000 1 h0) 100) in *.
  assert (G := glen_le 1000 h0 ltac:(lra) ltac:(lra)). change (F RNum) with R in *.
  assert (S := strained_near (glen 1000 h0) (t0 / 131072) (t1 / 131072 + 1 / 100000 * 0) (1 / 64) ltac:(lra)).
  set (u := strained _ _ _) in *. exists (glen 1000 h0 - u). 
  assert (Q : glen 1000 h0 * (1 - 1 / 64) <= u <= glen 1000 h0 * (1 + 1 / 64)).
  { apply S; [|lra]. apply Rabs_le. lra. }
  split; [apply Rabs_le; lra|]. split; [|ring]. intros L1 L2.
  destruct (Rle_lt_dec (t0 / 131072) (t1 / 131072 + 1 / 100000 * 0)) as [C|C].
  - unfold u. rewrite strained_ge by lra. nra.
  - assert (S2 := strained_near (glen 1000 h0) (t0 / 131072) (t1 / 131072 + 1 / 100000 * 0) (500 / 131072) ltac:(lra)).
    assert (Q2 : glen 1000 h0 * (1 - 500 / 131072) <= u).
    { apply S2; [|lra]. rewrite Rabs_left by lra. lra. }
    lra.
Qed.

Lemma middle_search : forall used mem, (forall x, mem x = l_memory used 70 (70 + 0) x) ->
  exists m r, rl_Update (l_cats 1000 1 750) (l_weights 1) mem l_reloader = Ok (false, (m, r)).
Proof.
  intros used mem M. assert (XL := long_minimum 750).
  destruct (middle_gap 750 500 ltac:(lra) ltac:(lra)) as (el & El & _ & Gl). destruct (middle_gap 750 1000 ltac:(lra) ltac:(lra)) as (er & _ & Er & Gr).
  specialize (Er ltac:(lra) ltac:(lra)). apply abs_bounds in El.
  assert (D1 := glen_gap 1000 500 750 ltac:(lra) ltac:(lra) ltac:(lra)). assert (D2 := glen_gap 1000 750 1000 ltac:(lra) ltac:(lra) ltac:(lra)).
  apply (stuck (l_cats 1000 1 750) (l_weights 1) mem 0 0 1 0 (same_memory_tracked _ _ _ M) (l_gap 1000 1 750 0 500) (l_gap 1000 1 750 0 1000)).
  - rewrite XL. lra.
  - rewrite XL. apply (long_gap used); [exact M|lra|lra].
  - rewrite XL. replace (2 * 500) with 1000 by ring. apply (long_gap used); [exact M|lra|lra].
  - lra.
  - lra.
  - rewrite XL. replace (3 / 2 * 500) with 750 by field. rewrite (long_gap used mem 750 0 750 M) by lra. f_equal. unfold l_gap.
    rewrite strained_ge; [req; ring| |lra]. left. apply glen_pos; lra.
Qed.

Lemma middle_zero : forall used,
  length_gap (cable_strain (l_memory used 70 (70 + 0) 0%Z)) (cable_strain (l_memory used 70 (70 + 0) 1%Z)) (l_cats 1000 1 750 0%Z) (l_weights 1 0%Z) (750 : RNum) = Ok (0 : F RNum).
Proof.
  intros used. rewrite (long_gap used _ 750 0 750) by (reflexivity || lra). f_equal. unfold l_gap. rewrite strained_ge; [req; ring| |lra]. left. apply glen_pos; lra.
Qed.

(** ** A catenary at the lowest tension and a cable warmer by 1/20 *)
Lemma low_y : forall h, 500 - 1 / 200 <= h <= 500 -> l_gap 1000 1 500 (1 / 20) h < 1 / 10.
Proof.
  intros h H. unfold l_gap. rewrite !over_1.
  assert (Z : 1 <= 1000 / (2 * h) <= 1 + 1 / 90000).
  { split; (apply Rmult_le_reg_r with (2 * h); [lra|]); replace (1000 / (2 * h) * (2 * h)) with 1000 by (field; lra); lra. }
  assert (GU : 0 <= glen 1000 h - glen 1000 500 <= 6 / 100).
  { destruct (Req_dec h 500) as [->|NE]; [lra|]. split.
    - assert (D := glen_gap 1000 h 500 ltac:(lra) ltac:(lra) ltac:(lra)).
      assert (0 <= 1000 / (2 * h) * (1000 / (2 * h)) - 1000 / (2 * 500) * (1000 / (2 * 500))). { replace (1000 / (2 * 500)) with 1 by field. nra. } lra.
    - unfold glen. replace (1000 / (2 * 500)) with 1 by field. set (z := 1000 / (2 * h)) in *.
      assert (SZ : sinh z - sinh 1 <= 5 * (z - 1)).
      { destruct (Req_dec z 1) as [->|N1]; [lra|]. destruct (MVT_cor2 sinh cosh 1 z ltac:(lra)) as (c & E & C); [intros; apply derivable_pt_lim_sinh|].
        assert (CC := cosh_two c ltac:(lra)). rewrite E. apply Rmult_le_compat_r; lra. }
      assert (S1 := sinh_pos z ltac:(lra)). nra. }
  assert (AV := level_average_lipschitz 1000 1 ltac:(lra) ltac:(lra) h 500 ltac:(lra)). rewrite !over_1 in AV. specialize (AV ltac:(lra)).
  set (t1 := c3_TensionAverage (level 1000 1 h) 100) in *. set (t0 := c3_TensionAverage (level 1000 1 500) 100) in *. change (F RNum) with R in *.
  assert (G := glen_le 1000 500 ltac:(lra) ltac:(lra)).
  assert (X : t0 / 131072 <= t1 / 131072 + 1 / 100000 * (1 / 20)) by lra.
  rewrite strained_ge by lra. set (e := t1 / 131072 + 1 / 100000 * (1 / 20) - t0 / 131072).
  assert (E : 0 <= e) by (unfold e; lra). nra.
Qed.

Lemma low_left : exists v, 1 / 2000 <= v <= 1 / 1000 /\ l_gap 1000 1 500 (1 / 20) 500 = - v.
Proof.
  exists (glen 1000 500 * (1 / 2000000)). assert (G := glen_le 1000 500 ltac:(lra) ltac:(lra)). split; [lra|].
  unfold l_gap. rewrite !over_1. rewrite strained_ge by lra. lra.
Qed.

Lemma low_right : l_gap 1000 1 500 (1 / 20) 1000 <= -125.
Proof.
  unfold l_gap. rewrite !over_1.
  assert (A1 := average_range 1000 1 1000 ltac:(lra) ltac:(lra) ltac:(lra)). assert (A2 := average_range 1000 1 500 ltac:(lra) ltac:(lra) ltac:(lra)).
  set (t1 := c3_TensionAverage (level 1000 1 1000) 100) in *. set (t0 := c3_TensionAverage (level 1000 1 500) 100) in *. change (F RNum) with R in *.
  assert (G := glen_le 1000 500 ltac:(lra) ltac:(lra)). assert (D := glen_gap 1000 500 1000 ltac:(lra) ltac:(lra) ltac:(lra)).
  rewrite strained_ge by lra. set (e := t1 / 131072 + 1 / 100000 * (1 / 20) - t0 / 131072). assert (E : 0 <= e) by (unfold e; lra). nra.
Qed.

Lemma low_search : forall used mem, (forall x, mem x = l_memory used 70 (70 + 1 / 20) x) ->
  exists m r, rl_Update (l_cats 1000 1 500) (l_weights 1) mem l_reloader = Ok (true, (m, r)) /\
    c3_tension_horizontal (rl_result r) < 500 /\ c3_Validate (rl_result r) = false.
Proof.
  intros used mem M. assert (XL := long_minimum 500).
  destruct low_left as (v & V & YL). assert (YR := low_right).
  set (yl := l_gap 1000 1 500 (1 / 20) 500) in *. set (yr := l_gap 1000 1 500 (1 / 20) 1000) in *.
  set (x := 500 + (0 - yl) / ((yr - yl) / (1000 - 500))).
  assert (X : 500 - 1 / 200 <= x < 500).
  { unfold x. set (q := (0 - yl) / ((yr - yl) / (1000 - 500))).
    assert (Q : q * (yr - yl) = 500 * (0 - yl)) by (unfold q; field; lra). split; [|]; nra. }
  destruct (one_pass (l_cats 1000 1 500) (l_weights 1) mem 0 0 1 0 (same_memory_tracked _ _ _ M)
    yl yr x (l_gap 1000 1 500 (1 / 20) x)
    (mkPoint2d (N := RNum) x (l_gap 1000 1 500 (1 / 20) x)) (mkPoint2d (N := RNum) 500 yl)) as (m & r & E & H & TW).
  - rewrite XL. lra.
  - rewrite XL. apply (long_gap used); [exact M|lra|lra].
  - rewrite XL. replace (2 * 500) with 1000 by ring. apply (long_gap used); [exact M|lra|lra].
  - rewrite XL. unfold next_tension. cbn [p2x p2y]. rn. rewrite (proj2 (Rltb_false 0 yl)) by lra. cbn [andb]. replace (2 * 500) with 1000 by ring. reflexivity.
  - apply (long_gap used); [exact M|lra|lra].
  - rewrite XL. unfold next_points. cbn [p2x p2y]. rn. rewrite (proj2 (Rltb_true x 500)) by lra. reflexivity.
  - cbn [p2x]. rewrite Rabs_left by lra. lra.
  - apply low_y. lra.
  - exists m, r. split; [exact E|]. split; [rewrite H; lra|].
    change (rehung (l_cats 1000 1 500 0%Z) (l_weights 1 0%Z) x) with (level 1000 1 x) in TW.
    assert (B : c3_Validate (rl_result r) = c3_Validate (level 1000 1 x)).
    { assert (A := twin_answer (rl_result r) (level 1000 1 x) Q3Validate TW). cbn [c3_answer] in A. injection A as A. exact A. }
    rewrite B. apply level_invalid; lra.
Qed.
