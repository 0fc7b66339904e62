(** Histories of the saggers and of the corrector, in every arithmetic. *)
From Coq Require Import ZArith Bool List Lia.
From Verif Require Import Num ModelBase ModelLine ModelCatenary SpecCatenary ModelSolver ModelThermal ModelSagtension ModelSagging
  SpecSagging.
Import ListNotations.
Open Scope num_scope.

Section Histories.
Context {N : Num}.

(** ** The stopwatch sagger *)
Definition sw_renew (s : Stopwatch N) : Stopwatch N := sw_fresh (sw_catenary s) (sw_units s).
Definition sw_current (s : Stopwatch N) : Prop := sw_updated s = true -> sw_Update s = (true, s).

Lemma sw_Update_renew : forall s, sw_Update (sw_renew s) = sw_Update s \/
  (gravity (N := N) (sw_units s) = None /\ fst (sw_Update (sw_renew s)) = false /\ fst (sw_Update s) = false).
Proof.
  intros s. unfold sw_Update. change (sw_units (sw_renew s)) with (sw_units s).
  change (sw_catenary (sw_renew s)) with (sw_catenary s). destruct (gravity (sw_units s)); auto.
Qed.

Lemma sw_Update_again : forall s s', sw_Update s = (true, s') ->
  sw_Update s' = (true, s') /\ sw_updated s' = true /\ sw_renew s' = sw_renew s.
Proof.
  intros s s' H. unfold sw_Update in H |- *. destruct (gravity (sw_units s)) as [g|] eqn:G; [|discriminate H].
  injection H as <-. cbn [sw_units sw_catenary sw_updated]. rewrite G. auto.
Qed.

Lemma sw_Update_failed : forall s s', sw_Update s = (false, s') -> sw_updated s' = false /\ sw_renew s' = sw_renew s.
Proof.
  intros s s' H. unfold sw_Update in H. destruct (gravity (sw_units s)) as [g|] eqn:G; [discriminate H|].
  injection H as <-. auto.
Qed.

Lemma sw_alike_renew : forall s, sw_current s -> sw_alike s (sw_renew s).
Proof.
  intros s C.
  assert (A : sw_ensure s = sw_ensure (sw_renew s) \/ (fst (sw_ensure s) = false /\ fst (sw_ensure (sw_renew s)) = false)).
  { unfold sw_ensure. change (sw_updated (sw_renew s)) with false. cbn match.
    destruct (sw_Update_renew s) as [-> | (G & A & B)].
    - left. destruct (sw_updated s) eqn:U; [symmetry; apply C; exact U|reflexivity].
    - right. split; [|exact A]. destruct (sw_updated s) eqn:U; [|exact B]. specialize (C U). rewrite C in B. discriminate B. }
  unfold sw_alike, TimeReturn, VelocityWave. split; [|split]; [| |reflexivity].
  - intros w. destruct A as [-> | (A & B)]; [reflexivity|].
    destruct (sw_ensure s) as [b t], (sw_ensure (sw_renew s)) as [b' t']. cbn [fst] in A, B. rewrite A, B. reflexivity.
  - destruct A as [-> | (A & B)]; [reflexivity|].
    destruct (sw_ensure s) as [b t], (sw_ensure (sw_renew s)) as [b' t']. cbn [fst] in A, B. rewrite A, B. reflexivity.
Qed.

Lemma sw_ensure_keeps : forall s, sw_current s -> let t := snd (sw_ensure s) in sw_current t /\ sw_renew t = sw_renew s.
Proof.
  intros s C t. unfold t, sw_ensure. destruct (sw_updated s) eqn:U; [split; [exact C|reflexivity]|].
  destruct (sw_Update s) as [[] s'] eqn:E; cbn [snd].
  - destruct (sw_Update_again _ _ E) as (A & _ & R). split; [intros _; exact A|exact R].
  - destruct (sw_Update_failed _ _ E) as (A & R). split; [intros B; rewrite A in B; discriminate B|exact R].
Qed.

Lemma sw_call_current : forall s s' k, sw_current s -> sw_call s k = Ok s' ->
  sw_current s' /\
  sw_renew s' = sw_fresh (match pickSw_catenary k with Some x => x | None => sw_catenary s end)
    (match pickSw_units k with Some x => x | None => sw_units s end).
Proof.
  intros s s' k C H. destruct (sw_ensure_keeps s C) as (A & B). cbv zeta in A, B.
  destruct k; cbn [sw_call pickSw_catenary pickSw_units] in H |- *;
    try (injection H as <-; split; [intros U; discriminate U|reflexivity]).
  - unfold TimeReturn in H. destruct (sw_ensure s) as [[] t]; cbn [snd] in A, B.
    + destruct (int_value (wave * 2)); [|discriminate H]. injection H as <-. split; [exact A|exact B].
    + injection H as <-. split; [exact A|exact B].
  - unfold VelocityWave in H. destruct (sw_ensure s) as [b t]; cbn [snd] in A, B, H. injection H as <-. split; [exact A|exact B].
  - injection H as <-. split; [exact C|reflexivity].
Qed.

Lemma sw_run_current : forall (ks : list (SwCall N)) s s', sw_current s -> sw_run s ks = Ok s' ->
  sw_current s' /\ sw_renew s' = sw_fresh (last_of pickSw_catenary ks (sw_catenary s)) (last_of pickSw_units ks (sw_units s)).
Proof.
  induction ks as [|k ks IH]; intros s s' C H; cbn [sw_run last_of] in H |- *.
  - injection H as <-. split; [exact C|reflexivity].
  - destruct (sw_call s k) as [t| |] eqn:E; try discriminate H. cbn [obind] in H.
    destruct (sw_call_current s t k C E) as (D & R). destruct (IH t s' D H) as (F & G). split; [exact F|].
    rewrite G. assert (R1 := f_equal sw_catenary R). assert (R2 := f_equal sw_units R).
    change (sw_catenary (sw_renew t)) with (sw_catenary t) in R1. change (sw_units (sw_renew t)) with (sw_units t) in R2.
    rewrite R1, R2. reflexivity.
Qed.

Lemma stopwatch_follows : forall (ks : list (SwCall N)) s, sw_run Stopwatch_new ks = Ok s ->
  sw_alike s (sw_fresh (last_of pickSw_catenary ks Catenary3d_default) (last_of pickSw_units ks USNull)).
Proof.
  intros ks s H. destruct (sw_run_current ks Stopwatch_new s ltac:(intros U; discriminate U) H) as (C & R).
  cbn [sw_catenary sw_units Stopwatch_new] in R. rewrite <- R. apply sw_alike_renew, C.
Qed.

(** ** The transit sagger *)
Definition ts_renew (s : Transit N) : Transit N := ts_fresh (ts_catenary s) (ts_transit s).

(** The update of an object depends on its inputs but for the members of a failed update. *)
Definition ts_equal (s t : Transit N) : Prop := ts_catenary s = ts_catenary t /\ ts_transit s = ts_transit t.
Lemma ts_Update_inputs : forall s t, ts_equal s t ->
  match ts_Update s, ts_Update t with
  | Ok (true, s'), Ok (true, t') => s' = t' /\ ts_updated s' = true /\ ts_equal s' s
  | Ok (false, s'), Ok (false, t') => ts_updated s' = false /\ ts_updated t' = false /\ ts_equal s' s /\ ts_equal t' t
  | Throw, Throw | UB, UB => True
  | _, _ => False
  end.
Proof.
  intros s t (A & B). unfold ts_Update, UpdatePointCatenaryLow.
  assert (S : sight s = sight t) by (unfold sight; rewrite A, B; reflexivity).
  rewrite S. destruct (search (sight t) search_fuel Search_start) as [[r|]| |]; cbn [obind]; auto.
  destruct ((se_position r =? #0) || (se_position r =? #1)); cbn [obind].
  - unfold ts_flag, ts_equal. cbn. auto.
  - unfold UpdateAngleLow. cbn [ts_angle ts_catenary ts_updated ts_low ts_transit ts_position]. rewrite A, B.
    unfold ts_flag. cbn [ts_angle ts_catenary ts_updated ts_low ts_transit ts_position].
    destruct (negb _); unfold ts_equal; cbn [ts_angle ts_catenary ts_updated ts_low ts_transit ts_position]; auto.
Qed.

Definition ts_current (s : Transit N) : Prop := ts_updated s = true -> ts_Update s = Ok (true, s).

Lemma ts_renew_equal : forall s, ts_equal s (ts_renew s).
Proof. intros s. split; reflexivity. Qed.
Lemma ts_equal_renew : forall s t, ts_equal s t -> ts_renew s = ts_renew t.
Proof. intros s t (A & B). unfold ts_renew. rewrite A, B. reflexivity. Qed.

Lemma ts_Update_kept : forall s b s', ts_Update s = Ok (b, s') -> ts_current s' /\ ts_renew s' = ts_renew s /\ ts_updated s' = b.
Proof.
  intros s b s' H. generalize (ts_Update_inputs s s (conj eq_refl eq_refl)). rewrite H. destruct b.
  - intros (_ & U & E). split; [|split; [apply ts_equal_renew, E|exact U]]. intros _.
    generalize (ts_Update_inputs s' s E). rewrite H. destruct (ts_Update s') as [[[] t]| |]; try easy.
    intros (-> & _). reflexivity.
  - intros (U & _ & E & _). split; [intros V; rewrite U in V; discriminate V|split; [apply ts_equal_renew, E|exact U]].
Qed.

Lemma ts_ensure_kept : forall s b s', ts_current s -> ts_ensure s = Ok (b, s') -> ts_current s' /\ ts_renew s' = ts_renew s.
Proof.
  intros s b s' C H. unfold ts_ensure in H. destruct (ts_updated s) eqn:U.
  - injection H as <- <-. auto.
  - destruct (ts_Update_kept _ _ _ H) as (A & B & _). auto.
Qed.

Lemma ts_ensure_renew : forall s, ts_current s ->
  match ts_ensure s, ts_ensure (ts_renew s) with
  | Ok (true, s'), Ok (true, t') => s' = t'
  | Ok (false, _), Ok (false, _) | Throw, Throw | UB, UB => True
  | _, _ => False
  end.
Proof.
  intros s C. unfold ts_ensure. change (ts_updated (ts_renew s)) with false. cbn match.
  generalize (ts_Update_inputs s (ts_renew s) (ts_renew_equal s)). destruct (ts_updated s) eqn:U.
  - rewrite (C U). destruct (ts_Update (ts_renew s)) as [[[] t]| |]; easy.
  - destruct (ts_Update s) as [[[] t]| |], (ts_Update (ts_renew s)) as [[[] t']| |]; easy.
Qed.

Lemma ts_alike_renew : forall s, ts_current s -> ts_alike s (ts_renew s).
Proof.
  intros s C. unfold ts_alike, AngleLow, FactorControl, PointCatenaryLow, PointTarget.
  generalize (ts_ensure_renew s C).
  assert (V : omap fst (ts_Validate s) = omap fst (ts_Validate (ts_renew s))).
  { unfold ts_Validate. change (ts_inputs_valid (ts_renew s)) with (ts_inputs_valid s).
    destruct (ts_inputs_valid s); [|reflexivity]. generalize (ts_Update_inputs s (ts_renew s) (ts_renew_equal s)).
    destruct (ts_Update s) as [[[] t]| |], (ts_Update (ts_renew s)) as [[[] t']| |]; easy. }
  destruct (ts_ensure s) as [[[] t]| |], (ts_ensure (ts_renew s)) as [[[] t']| |]; try easy;
    intros ->; cbn [obind omap]; repeat split; try exact V; reflexivity.
Qed.

Lemma ts_call_current : forall s s' k, ts_current s -> ts_call s k = Ok s' ->
  ts_current s' /\
  ts_renew s' = ts_fresh (match pickTs_catenary k with Some x => x | None => ts_catenary s end)
    (match pickTs_transit k with Some x => x | None => ts_transit s end).
Proof.
  intros s s' k C H.
  destruct k; cbn [ts_call pickTs_catenary pickTs_transit] in H |- *;
    try (injection H as <-; split; [intros U; discriminate U|reflexivity]).
  all: try (unfold AngleLow, FactorControl, PointCatenaryLow, PointTarget in H;
    destruct (ts_ensure s) as [[b t]| |] eqn:E; try discriminate H; injection H as <-;
    destruct (ts_ensure_kept _ _ _ C E) as (A & B); split; [exact A|exact B]).
  unfold ts_Validate in H. destruct (ts_inputs_valid s).
  - destruct (ts_Update s) as [[b t]| |] eqn:E; try discriminate H. injection H as <-.
    destruct (ts_Update_kept _ _ _ E) as (A & B & _). split; [exact A|exact B].
  - injection H as <-. split; [exact C|reflexivity].
Qed.

Lemma ts_run_current : forall (ks : list (TsCall N)) s s', ts_current s -> ts_run s ks = Ok s' ->
  ts_current s' /\ ts_renew s' = ts_fresh (last_of pickTs_catenary ks (ts_catenary s)) (last_of pickTs_transit ks (ts_transit s)).
Proof.
  induction ks as [|k ks IH]; intros s s' C H; cbn [ts_run last_of] in H |- *.
  - injection H as <-. split; [exact C|reflexivity].
  - destruct (ts_call s k) as [t| |] eqn:E; try discriminate H. cbn [obind] in H.
    destruct (ts_call_current s t k C E) as (D & R). destruct (IH t s' D H) as (F & G). split; [exact F|].
    rewrite G. assert (R1 := f_equal ts_catenary R). assert (R2 := f_equal ts_transit R).
    change (ts_catenary (ts_renew t)) with (ts_catenary t) in R1. change (ts_transit (ts_renew t)) with (ts_transit t) in R2.
    rewrite R1, R2. reflexivity.
Qed.

Lemma transit_follows : forall (ks : list (TsCall N)) s, ts_run Transit_new ks = Ok s ->
  ts_alike s (ts_fresh (last_of pickTs_catenary ks Catenary3d_default) (last_of pickTs_transit ks Point3d_default)).
Proof.
  intros ks s H. destruct (ts_run_current ks Transit_new s ltac:(intros U; discriminate U) H) as (C & R).
  cbn [ts_catenary ts_transit Transit_new] in R. rewrite <- R. apply ts_alike_renew, C.
Qed.

(** ** The corrector *)
Definition pc_renew (s : Corrector N) : Corrector N := pc_fresh (pc_linecable s) (pc_points s).
Definition pc_equal (s t : Corrector N) : Prop := pc_linecable s = pc_linecable t /\ pc_points s = pc_points t.

(** The clipped state and the pulley state without the object. *)
Definition clipped_of (l : option (Strung N)) (ps : option (list (Point3d N))) : outcome (option (list (Catenary3d N))) :=
  do l <- deref l;
  do section <- CatenaryRulingSpan (lc_payload l);
  if c3_Validate section then
    do points <- deref ps;
    match points with [] => Throw | p :: ps => Ok (Some (clipped_spans section p ps)) end
  else Ok None.

Definition pulleyed_of (clipped : list (Catenary3d N)) : outcome (option (list (Catenary3d N) * N)) :=
  do r <- UpdatePulleyState (mkCorrector clipped [] false (LengthCatenaries clipped) ferr None None);
  Ok (if fst r then Some (pc_pulleyed (snd r), pc_length_pulleyed (snd r)) else None).

Lemma UpdateClipped_of : forall s,
  match clipped_of (pc_linecable s) (pc_points s) with
  | Ok (Some cs) => UpdateClippedState s = Ok (true, pc_with s cs (pc_pulleyed s) (pc_updated s) (LengthCatenaries cs) (pc_length_pulleyed s))
  | Ok None => UpdateClippedState s = Ok (false, pc_with s [] (pc_pulleyed s) (pc_updated s) ferr (pc_length_pulleyed s))
  | Throw => UpdateClippedState s = Throw
  | UB => UpdateClippedState s = UB
  end.
Proof.
  intros s. unfold UpdateClippedState, clipped_of.
  destruct (deref (pc_linecable s)) as [l| |]; cbn [obind]; try reflexivity.
  destruct (CatenaryRulingSpan (lc_payload l)) as [c| |]; cbn [obind]; try reflexivity.
  destruct (c3_Validate c); [|reflexivity].
  destruct (deref (pc_points s)) as [[|p ps]| |]; cbn [obind]; reflexivity.
Qed.

Lemma UpdatePulley_of : forall s, pc_length_clipped s = LengthCatenaries (pc_clipped s) ->
  match pulleyed_of (pc_clipped s) with
  | Ok (Some (cs, l)) => UpdatePulleyState s = Ok (true, pc_with s (pc_clipped s) cs (pc_updated s) (pc_length_clipped s) l)
  | Ok None => exists cs l, UpdatePulleyState s = Ok (false, pc_with s (pc_clipped s) cs (pc_updated s) (pc_length_clipped s) l)
  | Throw => UpdatePulleyState s = Throw
  | UB => UpdatePulleyState s = UB
  end.
Proof.
  intros s L. unfold pulleyed_of, UpdatePulleyState. cbn [pc_clipped pc_length_clipped]. rewrite L.
  destruct (pc_clipped s) as [|c cs] eqn:E; cbn [obind]; [reflexivity|]. rewrite <- E.
  destruct (SolvePulleyStateTensions (pc_clipped s) (c3_tension_horizontal c)) as [[[] c1]| |]; cbn [obind fst snd]; try reflexivity.
  - destruct (SolvePulleyStateTensions c1 _) as [[[] c2]| |]; cbn [obind fst snd]; try reflexivity.
    + destruct (pulley_loop _ _ _) as [[[] r]| |]; cbn [obind fst snd andb]; try reflexivity.
      * destruct (pu_iter r <? 100)%Z; cbn [fst snd]; [reflexivity|]. eexists; eexists; reflexivity.
      * eexists; eexists; reflexivity.
    + eexists; eexists; reflexivity.
  - eexists; eexists; reflexivity.
Qed.

(** The answer of an update: the catenaries of both states and the length of the second. *)
Definition corrected_of (l : option (Strung N)) (ps : option (list (Point3d N))) :
    outcome (option (list (Catenary3d N) * list (Catenary3d N) * N)) :=
  do c <- clipped_of l ps;
  match c with
  | None => Ok None
  | Some c => do p <- pulleyed_of c; Ok (match p with None => None | Some (p, n) => Some (c, p, n) end)
  end.

Lemma pc_Update_of : forall s,
  match corrected_of (pc_linecable s) (pc_points s) with
  | Ok (Some (c, p, n)) => pc_Update s = Ok (true, pc_with s c p true (LengthCatenaries c) n)
  | Ok None => exists s', pc_Update s = Ok (false, s') /\ pc_updated s' = false /\ pc_equal s' s
  | Throw => pc_Update s = Throw
  | UB => pc_Update s = UB
  end.
Proof.
  intros s. unfold corrected_of, pc_Update. generalize (UpdateClipped_of s).
  destruct (clipped_of (pc_linecable s) (pc_points s)) as [[c|]| |]; intros ->; cbn [obind]; try reflexivity.
  - set (t := pc_flag _ true). generalize (UpdatePulley_of t eq_refl). change (pc_clipped t) with c.
    destruct (pulleyed_of c) as [[[p n]|]| |]; cbn [obind].
    + intros ->. reflexivity.
    + intros (cs & l & ->). eexists. split; [reflexivity|]. split; [reflexivity|]. split; reflexivity.
    + intros ->. reflexivity.
    + intros ->. reflexivity.
  - eexists. split; [reflexivity|]. split; [reflexivity|]. split; reflexivity.
Qed.

Definition pc_current (s : Corrector N) : Prop := pc_updated s = true ->
  corrected_of (pc_linecable s) (pc_points s) = Ok (Some (pc_clipped s, pc_pulleyed s, pc_length_pulleyed s)) /\
  pc_length_clipped s = LengthCatenaries (pc_clipped s).

Lemma pc_equal_renew : forall s t, pc_equal s t -> pc_renew s = pc_renew t.
Proof. intros s t (A & B). unfold pc_renew. rewrite A, B. reflexivity. Qed.

Lemma pc_Update_kept : forall s b s', pc_Update s = Ok (b, s') -> pc_current s' /\ pc_renew s' = pc_renew s.
Proof.
  intros s b s' H. generalize (pc_Update_of s).
  destruct (corrected_of (pc_linecable s) (pc_points s)) as [[[[c p] n]|]| |] eqn:E.
  - intros G. rewrite G in H. injection H as <- <-. split; [|reflexivity]. intros _. cbn. split; [exact E|reflexivity].
  - intros (t & G & U & Q). rewrite G in H. injection H as <- <-.
    split; [intros V; rewrite U in V; discriminate V|apply pc_equal_renew, Q].
  - intros G. rewrite G in H. discriminate H.
  - intros G. rewrite G in H. discriminate H.
Qed.

Lemma pc_ensure_kept : forall s b s', pc_current s -> pc_ensure s = Ok (b, s') -> pc_current s' /\ pc_renew s' = pc_renew s.
Proof.
  intros s b s' C H. unfold pc_ensure in H. destruct (pc_updated s) eqn:U.
  - injection H as <- <-. auto.
  - exact (pc_Update_kept _ _ _ H).
Qed.

(** What the queries of an object see. *)
Lemma pc_ensure_of : forall s, pc_current s ->
  match corrected_of (pc_linecable s) (pc_points s) with
  | Ok (Some (c, p, n)) => exists s', pc_ensure s = Ok (true, s') /\ pc_clipped s' = c /\ pc_pulleyed s' = p /\ pc_length_pulleyed s' = n
  | Ok None => exists s', pc_ensure s = Ok (false, s')
  | Throw => pc_ensure s = Throw
  | UB => pc_ensure s = UB
  end.
Proof.
  intros s C. unfold pc_ensure. destruct (pc_updated s) eqn:U.
  - destruct (C U) as (-> & _). exists s. auto.
  - generalize (pc_Update_of s). destruct (corrected_of (pc_linecable s) (pc_points s)) as [[[[c p] n]|]| |].
    + intros ->. eexists. split; [reflexivity|]. auto.
    + intros (t & -> & _). eexists. reflexivity.
    + auto.
    + auto.
Qed.

Lemma pc_alike_renew : forall s, pc_current s -> pc_alike s (pc_renew s).
Proof.
  intros s C. assert (C' : pc_current (pc_renew s)) by (intros U; discriminate U).
  generalize (pc_ensure_of s C), (pc_ensure_of _ C'). change (pc_linecable (pc_renew s)) with (pc_linecable s).
  change (pc_points (pc_renew s)) with (pc_points s).
  assert (V : forall env, omap fst (pc_Validate env s) = omap fst (pc_Validate env (pc_renew s))).
  { intros env. unfold pc_Validate. change (pc_linecable (pc_renew s)) with (pc_linecable s).
    change (pc_points (pc_renew s)) with (pc_points s).
    destruct (match pc_linecable s with None => _ | Some l => _ end) as [v1| |]; cbn [obind omap]; try reflexivity.
    generalize (pc_Update_of s), (pc_Update_of (pc_renew s)). change (pc_linecable (pc_renew s)) with (pc_linecable s).
    change (pc_points (pc_renew s)) with (pc_points s).
    destruct (corrected_of (pc_linecable s) (pc_points s)) as [[[[c p] n]|]| |].
    - intros -> ->. reflexivity.
    - intros (t & -> & _) (t' & -> & _). reflexivity.
    - intros -> ->. reflexivity.
    - intros -> ->. reflexivity. }
  unfold pc_alike, CatenariesClipped, CatenariesPulleyed, ClippingOffsets, SagCorrections.
  destruct (corrected_of (pc_linecable s) (pc_points s)) as [[[[c p] n]|]| |].
  - intros (t & -> & E1 & E2 & _) (t' & -> & E1' & E2' & _). cbn [obind omap]. rewrite E1, E2, E1', E2'.
    repeat split; try exact V; cbn [omap]; try reflexivity.
    + destruct (offsets_loop _ _ c p); reflexivity.
    + destruct (corrections_loop c p); reflexivity.
  - intros (t & ->) (t' & ->). repeat split; try exact V; reflexivity.
  - intros -> ->. repeat split; try exact V; reflexivity.
  - intros -> ->. repeat split; try exact V; reflexivity.
Qed.

Lemma pc_call_current : forall s s' k, pc_current s -> pc_call s k = Ok s' ->
  pc_current s' /\
  pc_renew s' = pc_fresh (match pickPc_linecable k with Some x => x | None => pc_linecable s end)
    (match pickPc_points k with Some x => x | None => pc_points s end).
Proof.
  intros s s' k C H.
  destruct k; cbn [pc_call pickPc_linecable pickPc_points] in H |- *;
    try (injection H as <-; split; [intros U; discriminate U|reflexivity]).
  1-4: unfold CatenariesClipped, CatenariesPulleyed, ClippingOffsets, SagCorrections in H;
    destruct (pc_ensure s) as [[[] t]| |] eqn:E; cbn [obind] in H; try discriminate H;
    destruct (pc_ensure_kept _ _ _ C E) as (A & B);
    try (destruct (offsets_loop _ _ _ _); cbn [obind] in H; try discriminate H);
    try (destruct (corrections_loop _ _); cbn [obind] in H; try discriminate H);
    injection H as <-; (split; [exact A|exact B]).
  unfold pc_Validate in H. destruct (match pc_linecable s with None => _ | Some l => _ end) as [v1| |]; try discriminate H.
  cbn [obind] in H. destruct (pc_Update s) as [[b t]| |] eqn:E; try discriminate H. injection H as <-.
  destruct (pc_Update_kept _ _ _ E) as (A & B). split; [exact A|exact B].
Qed.

Lemma pc_run_current : forall (ks : list (PcCall N)) s s', pc_current s -> pc_run s ks = Ok s' ->
  pc_current s' /\ pc_renew s' = pc_fresh (last_of pickPc_linecable ks (pc_linecable s)) (last_of pickPc_points ks (pc_points s)).
Proof.
  induction ks as [|k ks IH]; intros s s' C H; cbn [pc_run last_of] in H |- *.
  - injection H as <-. split; [exact C|reflexivity].
  - destruct (pc_call s k) as [t| |] eqn:E; try discriminate H. cbn [obind] in H.
    destruct (pc_call_current s t k C E) as (D & R). destruct (IH t s' D H) as (F & G). split; [exact F|].
    rewrite G. assert (R1 := f_equal pc_linecable R). assert (R2 := f_equal pc_points R).
    change (pc_linecable (pc_renew t)) with (pc_linecable t) in R1. change (pc_points (pc_renew t)) with (pc_points t) in R2.
    rewrite R1, R2. reflexivity.
Qed.

Lemma corrector_follows : forall (ks : list (PcCall N)) s, pc_run Corrector_new ks = Ok s ->
  pc_alike s (pc_fresh (last_of pickPc_linecable ks None) (last_of pickPc_points ks None)).
Proof.
  intros ks s H. destruct (pc_run_current ks Corrector_new s ltac:(intros U; discriminate U) H) as (C & R).
  cbn [pc_linecable pc_points Corrector_new] in R. rewrite <- R. apply pc_alike_renew, C.
Qed.

End Histories.
