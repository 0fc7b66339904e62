(** The steady temperature solver and the transient solver, in any arithmetic. *)
From Coq Require Import ZArith Bool List Lia.
From Verif Require Import Num NumFacts ModelBase ModelCable ModelThermal SpecCatenary SpecThermal ProofThermal.
Import ListNotations.

Section Any.
Context {N : Num}.

(** ** The current as a function of the temperature *)
Definition curve c u w (t : N) : N := let r := sc_result (sc_fresh c t u w) in if fst r then snd (snd r) else ferr.
Definition hstate c u w (t : N) : HeatState N := let r := sc_result (sc_fresh c t u w) in if fst r then fst (snd r) else HeatState_default.

Definition solver_at c u w (t : N) (s : CurrentSolver N) : Prop :=
  sc_cable s = c /\ sc_temperature s = t /\ sc_units s = u /\ sc_weather s = w /\ sc_settled s.

Lemma probe : forall (s : CurrentSolver N) t, exists s',
  sc_Current (sc_set_temperature s t) = Ok (curve (sc_cable s) (sc_units s) (sc_weather s) t, s') /\
  solver_at (sc_cable s) (sc_units s) (sc_weather s) t s'.
Proof.
  intros s t. destruct (sc_ensure_result (sc_set_temperature s t)) as (s' & E & I & U & R); [intros H; discriminate H|].
  assert (Q : sc_inputs (sc_set_temperature s t) (sc_fresh (sc_cable s) t (sc_units s) (sc_weather s))) by (repeat split).
  rewrite (sc_result_inputs _ _ Q) in E, U, R.
  exists s'. unfold sc_Current. rewrite E. cbn [obind]. split.
  - unfold curve. cbv zeta. destruct (fst (sc_result _)) eqn:F; [|reflexivity]. destruct (R eq_refl) as (_ & ->). reflexivity.
  - destruct I as (I1 & I2 & I3 & I4). repeat split; try assumption. intros V. rewrite U in V.
    rewrite (sc_result_inputs s' (sc_fresh (sc_cable s) t (sc_units s) (sc_weather s))).
    2: { unfold sc_inputs. rewrite I1, I2, I3, I4. repeat split. }
    destruct (R V) as (-> & ->). destruct (sc_result _) as [b [x y]]. cbn [fst snd] in *. rewrite V. reflexivity.
Qed.

Lemma probe_state : forall c u w t s, solver_at c u w t s -> omap fst (sc_StateHeatTransfer s) = Ok (hstate c u w t).
Proof.
  intros c u w t s (A & B & C & D & S). destruct (sc_ensure_result s S) as (s' & E & _ & _ & R).
  assert (Q : sc_inputs s (sc_fresh c t u w)) by (unfold sc_inputs; rewrite A, B, C, D; repeat split).
  rewrite (sc_result_inputs _ _ Q) in E, R.
  unfold sc_StateHeatTransfer. rewrite E. cbn [obind omap fst]. unfold hstate. cbv zeta.
  destruct (fst (sc_result (sc_fresh c t u w))) eqn:F; [|reflexivity].
  destruct (R eq_refl) as (-> & _). reflexivity.
Qed.

(** ** One pass and the loop *)
Definition step_x (target : N) (l r : Point2d N) : N :=
  (p2x l + ((target - p2y l) / ((p2y r - p2y l) / (p2x r - p2x l))))%num.

Definition step_points (target : N) (l r cur : Point2d N) : Point2d N * Point2d N :=
  (let x := p2x cur in let y := p2y cur in
    if x <? p2x l then (cur, l)
    else if (p2x l <? x) && (x <? p2x r) then
      if y <? target then (l, cur)
      else if target <? y then (cur, r)
      else (l, r)
    else if p2x r <? x then (r, cur)
    else (l, r))%num.

Section Loop.
Variable c : option (ThermalRatingCable N).
Variable u : UnitSystem.
Variable w : option (ThermalRatingWeather N).
Variable target : N.

Definition at_some (s : TempState N) : Prop := exists t, solver_at c u w t (tl_solver s).

Lemma temp_pass_ok : forall s, at_some s ->
  let x := step_x target (tl_left s) (tl_right s) in
  let cur := mkPoint2d x (curve c u w x) in
  exists s', temp_pass target s = Ok s' /\ solver_at c u w x (tl_solver s') /\
    tl_current s' = cur /\ tl_iter s' = (tl_iter s + 1)%Z /\
    (tl_left s', tl_right s') = step_points target (tl_left s) (tl_right s) cur.
Proof.
  intros s (t & A & B & C & D & S) x cur. unfold temp_pass. fold (step_x target (tl_left s) (tl_right s)). fold x.
  destruct (probe (tl_solver s) x) as (s' & -> & P). rewrite A, C, D in *. cbn [obind]. fold cur.
  unfold step_points. cbn [p2x p2y cur]. 
  repeat match goal with |- context [if ?b then _ else _] => destruct b end;
    (eexists; split; [reflexivity|]; cbn [tl_solver tl_current tl_iter tl_left tl_right]; repeat split; try reflexivity; apply P).
Qed.

Lemma temp_loop_ok : forall fuel s, at_some s -> exists s', temp_loop target fuel s = Ok s' /\ at_some s' /\
  (s' = s \/ solver_at c u w (p2x (tl_current s')) (tl_solver s')).
Proof.
  induction fuel as [|n IH]; intros s A; cbn [temp_loop].
  { exists s. auto. }
  destruct (andb _ _); [|exists s; auto].
  destruct (temp_pass_ok s A) as (s1 & -> & S1 & C1 & _). cbn [obind].
  destruct (IH s1) as (s2 & E & A2 & R); [eexists; exact S1|]. exists s2. split; [exact E|]. split; [exact A2|]. right.
  destruct R as [->|R]; [rewrite C1; exact S1|exact R].
Qed.
End Loop.

Definition start c u w (s : CurrentSolver N) : TempState N :=
  let air := tw_temperature_air w in
  mkTempState (mkPoint2d air (curve c u (Some w) air))
    (mkPoint2d (air + #10)%num (curve c u (Some w) (air + #10)%num)) Point2d_default 0 s.

Lemma solve_start : forall c (i : N) u w, exists s, solver_at c u (Some w) (tw_temperature_air w + #10)%num s /\
  solve_temperature c i u (Some w) =
    do s <- temp_loop i (Z.to_nat 102) (start c u w s);
    if (tl_iter s <? 100)%Z then do (state, _) <- sc_StateHeatTransfer (tl_solver s); Ok (true, (state, p2x (tl_current s)))
    else Ok (false, (HeatState_default, ferr)).
Proof.
  intros c i u w. unfold solve_temperature. cbn [deref obind].
  destruct (probe (sc_set_weather (sc_set_units (sc_set_cable CurrentSolver_default c) u) (Some w)) (tw_temperature_air w)) as (s1 & -> & (A1 & B1 & C1 & D1 & S1)).
  cbn [obind]. destruct (probe s1 (tw_temperature_air w + #10)%num) as (s2 & -> & P2). rewrite A1, C1, D1 in *.
  exists s2. split; [exact P2|]. reflexivity.
Qed.

Lemma solve_temperature_ok : forall c (i : N) u w, exists b st t,
  solve_temperature c i u (Some w) = Ok (b, (st, t)).
Proof.
  intros c i u w. destruct (solve_start c i u w) as (s & P & ->).
  destruct (temp_loop_ok c u (Some w) i (Z.to_nat 102) (start c u w s)) as (s3 & -> & (t3 & P3) & _); [eexists; exact P|].
  cbn [obind]. destruct (tl_iter s3 <? 100)%Z; [|eauto].
  assert (Q := probe_state _ _ _ _ _ P3). destruct (sc_StateHeatTransfer (tl_solver s3)) as [[st s4]| |]; try discriminate Q.
  cbn [obind]. eauto.
Qed.

(** ** Caching of the temperature solver *)
Definition st_inputs (s s' : TemperatureSolver N) : Prop :=
  st_cable s = st_cable s' /\ st_current s = st_current s' /\ st_units s = st_units s' /\ st_weather s = st_weather s'.

Definition st_solve (s : TemperatureSolver N) := solve_temperature (st_cable s) (st_current s) (st_units s) (st_weather s).

Lemma st_solve_inputs : forall s s', st_inputs s s' -> st_solve s = st_solve s'.
Proof. intros s s' (A & B & C & D). unfold st_solve. rewrite A, B, C, D. reflexivity. Qed.

Definition st_settled (s : TemperatureSolver N) : Prop := st_is_updated s = true ->
  st_solve s = Ok (true, (st_state s, st_temperature s)).

Lemma st_Update_eq : forall s, st_Update s = omap (fun r => (fst r,
  mkTemperatureSolver (st_cable s) (st_current s) (st_units s) (st_weather s) (fst (snd r)) (snd (snd r)) (fst r))) (st_solve s).
Proof. intros s. unfold st_Update, st_solve. destruct (solve_temperature _ _ _ _) as [[b [st t]]| |]; reflexivity. Qed.

Lemma st_ensure_cases : forall s, st_settled s -> exists r, st_ensure s = r /\
  omap (fun r => (fst r, (st_state (snd r), st_temperature (snd r)))) r = omap (fun r => r) (st_solve s).
Proof.
  intros s S. exists (st_ensure s). split; [reflexivity|]. unfold st_ensure. destruct (st_is_updated s) eqn:U.
  - rewrite (S U). reflexivity.
  - rewrite st_Update_eq. destruct (st_solve s) as [[b [x y]]| |]; reflexivity.
Qed.

Lemma st_inputs_renew : forall s, st_inputs (st_renew s) s.
Proof. intros s. repeat split. Qed.

Lemma st_settled_same : forall s, st_settled s -> st_same s (st_renew s).
Proof.
  intros s S. assert (S2 : st_settled (st_renew s)) by (intros H; discriminate H).
  destruct (st_ensure_cases s S) as (r1 & E1 & Q1). destruct (st_ensure_cases _ S2) as (r2 & E2 & Q2).
  rewrite (st_solve_inputs _ _ (st_inputs_renew s)), <- Q1 in Q2.
  unfold st_same, st_TemperatureCable, st_StateHeatTransfer, st_Validate. rewrite E1, E2, !st_Update_eq.
  rewrite (st_solve_inputs _ _ (st_inputs_renew s)).
  split; [|split].
  - destruct r1 as [[b1 s1]| |], r2 as [[b2 s2]| |]; cbn [omap obind fst snd] in *; try discriminate Q2; try reflexivity.
    injection Q2 as -> _ ->. reflexivity.
  - destruct r1 as [[b1 s1]| |], r2 as [[b2 s2]| |]; cbn [omap obind fst snd] in *; try discriminate Q2; try reflexivity.
    injection Q2 as -> -> _. reflexivity.
  - destruct (st_solve s) as [[b [x y]]| |]; reflexivity.
Qed.

Lemma st_query_call : forall (s : TemperatureSolver N) k, temperature_event k = EvQuery -> st_call s k = omap snd (st_ensure s).
Proof.
  intros s k E. destruct k; try discriminate E; cbn [st_call]; unfold st_TemperatureCable, st_StateHeatTransfer;
    destruct (st_ensure s) as [[b s']| |]; reflexivity.
Qed.

Definition st_known (answered dirty : bool) (s : TemperatureSolver N) : Prop :=
  (st_is_updated s = true -> answered = true) /\ (dirty = false -> st_settled s).

Lemma st_Update_settled : forall s b s', st_Update s = Ok (b, s') -> st_settled s' /\ st_inputs s' s.
Proof.
  intros s b s' H. rewrite st_Update_eq in H. destruct (st_solve s) as [[x [st t]]| |] eqn:E; cbn [omap obind fst snd] in H; try discriminate H.
  injection H as <- <-. split; [|repeat split]. intros U. cbn [st_is_updated] in U. subst x. exact E.
Qed.

Lemma st_call_known : forall (s : TemperatureSolver N) k s' a d, st_known a d s -> st_call s k = Ok s' ->
  st_known (fst (after_event (temperature_event k) a d)) (snd (after_event (temperature_event k) a d)) s'.
Proof.
  intros s k s' a d (K1 & K2) H.
  assert (Q : temperature_event k = EvQuery -> st_known true d s').
  { intros C. rewrite (st_query_call s k C) in H. unfold st_ensure in H. destruct (st_is_updated s) eqn:U.
    - cbn in H. injection H as <-. split; [auto|exact K2].
    - destruct (st_Update s) as [[b s1]| |] eqn:E; cbn [omap obind snd] in H; try discriminate H. injection H as <-.
      split; [auto|]. intros _. apply (st_Update_settled _ _ _ E). }
  destruct k; cbn [temperature_event after_event fst snd]; try (apply Q; reflexivity); cbn [st_call] in H;
    try (injection H as <-; split; [intros H; discriminate H|intros _ H; discriminate H]);
    try (injection H as <-; split; [exact K1|]; intros D H; apply orb_false_iff in D; destruct D as (_ & ->); specialize (K1 H); discriminate K1).
  unfold st_Validate in H. destruct (st_Update s) as [[b s1]| |] eqn:E; cbn [omap obind snd] in H; try discriminate H. injection H as <-.
  split; [auto|]. intros _. apply (st_Update_settled _ _ _ E).
Qed.

Lemma st_run_known : forall ks (s s' : TemperatureSolver N) a d, st_known a d s -> st_run s ks = Ok s' ->
  stale a d (map temperature_event ks) = false -> st_settled s'.
Proof.
  induction ks as [|k ks IH]; intros s s' a d K H D.
  { cbn in H, D. injection H as <-. apply K, D. }
  cbn [map st_run] in *. rewrite stale_cons in D. destruct (st_call s k) as [s1| |] eqn:C; cbn [obind] in H; try discriminate H.
  exact (IH _ _ _ _ (st_call_known _ _ _ _ _ K C) H D).
Qed.

Lemma st_default_known : st_known false false (@TemperatureSolver_default N).
Proof. split; [intros H; discriminate H|intros _ H; discriminate H]. Qed.

Lemma st_call_inputs : forall (s : TemperatureSolver N) k s', st_call s k = Ok s' ->
  st_cable s' = last_of pickT_cable [k] (st_cable s) /\ st_current s' = last_of pickT_current [k] (st_current s) /\
  st_units s' = last_of pickT_units [k] (st_units s) /\ st_weather s' = last_of pickT_weather [k] (st_weather s).
Proof.
  intros s k s' H.
  assert (Q : temperature_event k = EvQuery -> st_inputs s' s).
  { intros C. rewrite (st_query_call s k C) in H. unfold st_ensure in H. destruct (st_is_updated s) eqn:U.
    - cbn in H. injection H as <-. repeat split.
    - destruct (st_Update s) as [[b s1]| |] eqn:E; cbn [omap obind snd] in H; try discriminate H. injection H as <-.
      apply (st_Update_settled _ _ _ E). }
  destruct k; cbn [last_of pickT_cable pickT_current pickT_units pickT_weather];
    try (cbn [st_call] in H; injection H as <-; repeat split);
    try (apply Q; reflexivity).
  all: cbn [st_call] in H; unfold st_Validate in H; destruct (st_Update s) as [[b s1]| |] eqn:E; cbn [omap obind snd] in H; try discriminate H;
    injection H as <-; apply (st_Update_settled _ _ _ E).
Qed.

Lemma st_run_inputs : forall ks (s s' : TemperatureSolver N), st_run s ks = Ok s' ->
  st_cable s' = last_of pickT_cable ks (st_cable s) /\ st_current s' = last_of pickT_current ks (st_current s) /\
  st_units s' = last_of pickT_units ks (st_units s) /\ st_weather s' = last_of pickT_weather ks (st_weather s).
Proof.
  induction ks as [|k ks IH]; intros s s' H.
  { cbn in H. injection H as <-. repeat split. }
  cbn [st_run] in H. destruct (st_call s k) as [s1| |] eqn:C; cbn [obind] in H; try discriminate H.
  destruct (st_call_inputs _ _ _ C) as (A & B & D & E). destruct (IH _ _ H) as (A' & B' & D' & E').
  rewrite A', B', D', E', A, B, D, E. repeat split.
Qed.

Theorem st_history : forall ks s, st_run (@TemperatureSolver_default N) ks = Ok s ->
  (stale false false (map temperature_event ks) = false -> st_same s (st_renew s)) /\
  st_cable s = last_of pickT_cable ks None /\ st_current s = last_of pickT_current ks ferr /\
  st_units s = last_of pickT_units ks USNull /\ st_weather s = last_of pickT_weather ks None.
Proof.
  intros ks s R. split; [|exact (st_run_inputs ks _ s R)].
  intros D. exact (st_settled_same s (st_run_known ks _ _ _ _ st_default_known R D)).
Qed.

(** With a weather every call answers. *)
Lemma st_solve_some : forall s w, st_weather s = Some w -> exists r, st_solve s = Ok r.
Proof. intros s w E. unfold st_solve. rewrite E. destruct (solve_temperature_ok (st_cable s) (st_current s) (st_units s) w) as (b & x & y & ->). eauto. Qed.

Lemma st_Update_some : forall (s : TemperatureSolver N) w, st_weather s = Some w -> exists b s', st_Update s = Ok (b, s').
Proof. intros s w E. rewrite st_Update_eq. destruct (st_solve_some s w E) as (r & ->). cbn [omap obind]. eauto. Qed.

Lemma st_call_some : forall (s : TemperatureSolver N) k, (temperature_event k = EvQuery \/ temperature_event k = EvValidate -> st_weather s <> None) ->
  exists s', st_call s k = Ok s'.
Proof.
  intros s k W.
  assert (U : st_weather s <> None -> exists b s', st_Update s = Ok (b, s')).
  { intros X. destruct (st_weather s) as [w|] eqn:E; [|congruence]. exact (st_Update_some s w E). }
  assert (Q : temperature_event k = EvQuery -> exists s', st_call s k = Ok s').
  { intros C. rewrite (st_query_call s k C). unfold st_ensure. destruct (st_is_updated s); [cbn; eauto|].
    destruct (U (W (or_introl C))) as (b & s' & ->). cbn. eauto. }
  destruct k; try (apply Q; reflexivity); cbn [st_call]; eauto.
  unfold st_Validate. destruct (U (W (or_intror eq_refl))) as (b & s' & ->). cbn. eauto.
Qed.

Lemma st_run_some : forall ks (s : TemperatureSolver N), weather_first (st_weather s) ks -> exists s', st_run s ks = Ok s'.
Proof.
  induction ks as [|k ks IH]; intros s W; [cbn; eauto|].
  cbn [st_run weather_first] in *. destruct (st_call_some s k (proj1 W)) as (s1 & E). rewrite E. cbn [obind]. apply IH.
  destruct (st_call_inputs _ _ _ E) as (_ & _ & _ & ->). destruct k; exact (proj2 W).
Qed.

(** ** The transient solver *)
Lemma points_loop_ok : forall (s : TransientSolver N) fuel time prev,
  hs_Validate (mkHeatSolver (ts_cable s) (ts_units s) (ts_weather s)) = true ->
  (0 <= time)%Z -> ((0 < time)%Z -> prev <> None) ->
  exists l, points_loop s fuel time prev = Ok l /\ length l = fuel /\
    (forall i p, nth_error l i = Some p -> tp_time p = (time + Z.of_nat i)%Z).
Proof.
  intros s fuel time prev V. destruct (hs_Validate_inv _ V) as (b & w & E1 & E2 & U & VC & VW). cbn [hs_cable hs_units hs_weather] in *.
  revert time prev. induction fuel as [|n IH]; intros time prev T P; cbn [points_loop].
  { exists []. repeat split. intros [|i] p H; discriminate H. }
  assert (X : exists t, (if (time =? 0)%Z then TemperatureSteady s (ts_current_steady s)
     else do prev <- deref prev; do state <- ts_HeatTransferState (mkHeatSolver (ts_cable s) (ts_units s) (ts_weather s)) (ts_current_step s) prev;
          TemperatureNew (ts_cable s) prev state 1) = Ok t).
  { destruct (Z.eqb_spec time 0) as [Z|Z].
    - unfold TemperatureSteady, st_TemperatureCable. rewrite E2.
      match goal with |- context [st_ensure ?x] => change (st_ensure x) with (st_Update x); destruct (st_Update_some x w eq_refl) as (r & s' & ->) end.
      cbn. eauto.
    - destruct prev as [p|]; [|destruct (P ltac:(lia) eq_refl)]. cbn [deref obind].
      unfold ts_HeatTransferState, hs_HeatConvection, hs_HeatRadiation, hs_HeatResistance, hs_HeatSolar, TemperatureNew, base_of, trc_Resistance.
      cbn [hs_cable hs_units hs_weather]. rewrite E1, E2. cbn [deref obind trc_base].
      destruct (ts_units s); [congruence|cbn; eauto..]. }
  destruct X as (t & ->). cbn [obind]. destruct (IH (time + 1)%Z (Some t)) as (l & -> & L & Q); [lia|intros _ H; discriminate H|].
  cbn [obind]. eexists. split; [reflexivity|]. split; [cbn; lia|]. intros [|i] p H; cbn in H.
  - injection H as <-. cbn. lia.
  - rewrite (Q i p H). lia.
Qed.

(** The point after another one. *)
Lemma points_loop_next : forall (s : TransientSolver N) fuel time prev l,
  points_loop s fuel time prev = Ok l -> (0 <= time)%Z ->
  (forall p, nth_error l 0 = Some p ->
     if (time =? 0)%Z then TemperatureSteady s (ts_current_steady s) = Ok (tp_temperature p)
     else exists t, prev = Some t /\ (do state <- ts_HeatTransferState (mkHeatSolver (ts_cable s) (ts_units s) (ts_weather s)) (ts_current_step s) t;
            TemperatureNew (ts_cable s) t state 1) = Ok (tp_temperature p)) /\
  (forall i p q, nth_error l i = Some p -> nth_error l (S i) = Some q ->
     (do state <- ts_HeatTransferState (mkHeatSolver (ts_cable s) (ts_units s) (ts_weather s)) (ts_current_step s) (tp_temperature p);
            TemperatureNew (ts_cable s) (tp_temperature p) state 1) = Ok (tp_temperature q)).
Proof.
  intros s. induction fuel as [|n IH]; intros time prev l H T; cbn [points_loop] in H.
  { injection H as <-. split; [intros p H; discriminate H|]. intros [|i] p q H; discriminate H. }
  match type of H with obind ?x _ = _ => destruct x as [t| |] eqn:X end; cbn [obind] in H; try discriminate H.
  destruct (points_loop s n (time + 1) (Some t)) as [rest| |] eqn:R; cbn [obind] in H; try discriminate H. injection H as <-.
  destruct (IH _ _ _ R ltac:(lia)) as (A & B). split.
  - intros p H. cbn in H. injection H as <-. cbn [tp_temperature]. destruct (time =? 0)%Z; [exact X|].
    destruct prev as [t0|]; [|discriminate X]. exists t0. split; [reflexivity|exact X].
  - intros [|i] p q H1 H2; cbn in H1, H2; [|exact (B i p q H1 H2)].
    injection H1 as <-. cbn [tp_temperature]. assert (Q := A q H2). replace (time + 1 =? 0)%Z with false in Q by (symmetry; apply Z.eqb_neq; lia).
    destruct Q as (t1 & Q1 & Q2). injection Q1 as <-. exact Q2.
Qed.

Definition ts_inputs (s s' : TransientSolver N) : Prop :=
  ts_cable s = ts_cable s' /\ ts_current_steady s = ts_current_steady s' /\ ts_current_step s = ts_current_step s' /\
  ts_duration s = ts_duration s' /\ ts_units s = ts_units s' /\ ts_weather s = ts_weather s'.

Lemma points_loop_inputs : forall s s', ts_inputs s s' -> forall fuel time prev, points_loop s fuel time prev = points_loop s' fuel time prev.
Proof.
  intros s s' (A & B & C & D & E & F). induction fuel as [|n IH]; intros time prev; cbn [points_loop]; [reflexivity|].
  unfold TemperatureSteady. rewrite A, B, C, E, F.
  match goal with |- obind ?x _ = obind ?x _ => destruct x as [t| |]; cbn [obind]; try reflexivity end.
  rewrite IH. reflexivity.
Qed.

Lemma ts_points_inputs : forall s s', ts_inputs s s' -> UpdateTemperaturePoints s = UpdateTemperaturePoints s'.
Proof.
  intros s s' I. unfold UpdateTemperaturePoints. assert (J := I). destruct J as (A & B & C & D & E & F).
  rewrite A, D, E, F, (points_loop_inputs _ _ I). reflexivity.
Qed.

Lemma UpdateTemperaturePoints_ok : forall s : TransientSolver N, exists b l, UpdateTemperaturePoints s = Ok (b, l).
Proof.
  intros s. unfold UpdateTemperaturePoints. destruct (hs_Validate _) eqn:V; cbn [negb]; [|eauto].
  destruct (points_loop_ok s (Z.to_nat (ts_duration s + 1)) 0 None V) as (l & -> & _); [lia|lia|]. cbn. eauto.
Qed.

Definition ts_settled (s : TransientSolver N) : Prop := ts_is_updated s = true -> UpdateTemperaturePoints s = Ok (true, ts_points s).

Lemma ts_Update_ok : forall s : TransientSolver N, exists b s', ts_Update s = Ok (b, s') /\ ts_inputs s' s /\ ts_settled s' /\
  UpdateTemperaturePoints s = Ok (b, ts_points s').
Proof.
  intros s. unfold ts_Update. destruct (UpdateTemperaturePoints_ok s) as (b & l & E). rewrite E. cbn [obind].
  eexists _, _. split; [reflexivity|]. split; [repeat split|]. split; [|reflexivity].
  intros U. cbn [ts_is_updated ts_points] in *. subst b. refine (eq_trans _ E). apply ts_points_inputs. repeat split.
Qed.

Lemma ts_settled_same : forall s, ts_settled s -> ts_same s (ts_renew s).
Proof.
  intros s S. unfold ts_same, ts_PointsTemperature, ts_Validate. cbn [ts_is_updated ts_renew ts_fresh ts_set_weather].
  destruct (ts_Update_ok s) as (b1 & s1 & E1 & I1 & S1 & U1). destruct (ts_Update_ok (ts_renew s)) as (b2 & s2 & E2 & I2 & S2 & U2).
  rewrite (ts_points_inputs (ts_renew s) s) in U2 by (repeat split). rewrite U1 in U2. injection U2 as <- P.
  split.
  - fold (ts_renew s). rewrite E2. destruct (ts_is_updated s) eqn:F.
    + rewrite (S F) in U1. injection U1 as <- P1. cbn [obind omap fst]. rewrite P1, P. reflexivity.
    + rewrite E1. cbn [obind omap fst]. rewrite P. reflexivity.
  - fold (ts_renew s). rewrite E1, E2. reflexivity.
Qed.

Lemma ts_call_settled : forall (s : TransientSolver N) k, ts_settled s -> exists s', ts_call s k = Ok s' /\ ts_settled s' /\
  ts_cable s' = last_of pickR_cable [k] (ts_cable s) /\ ts_current_steady s' = last_of pickR_steady [k] (ts_current_steady s) /\
  ts_current_step s' = last_of pickR_step [k] (ts_current_step s) /\ ts_duration s' = last_of pickR_duration [k] (ts_duration s) /\
  ts_units s' = last_of pickR_units [k] (ts_units s) /\ ts_weather s' = last_of pickR_weather [k] (ts_weather s).
Proof.
  intros s k S.
  destruct k; cbn [ts_call last_of pickR_cable pickR_steady pickR_step pickR_duration pickR_units pickR_weather];
    try (eexists; split; [reflexivity|]; split; [intros H; discriminate H|repeat split]).
  - unfold ts_PointsTemperature. destruct (ts_is_updated s) eqn:U.
    + cbn [obind omap snd]. exists s. split; [reflexivity|]. split; [exact S|repeat split].
    + destruct (ts_Update_ok s) as (b & s' & -> & I & S' & _). cbn [obind omap snd]. exists s'. split; [reflexivity|]. split; [exact S'|exact I].
  - unfold ts_Validate. destruct (ts_Update_ok s) as (b & s' & -> & I & S' & _). cbn [obind omap snd]. exists s'. split; [reflexivity|]. split; [exact S'|exact I].
Qed.

Lemma ts_run_settled : forall ks (s : TransientSolver N), ts_settled s -> exists s', ts_run s ks = Ok s' /\ ts_settled s' /\
  ts_cable s' = last_of pickR_cable ks (ts_cable s) /\ ts_current_steady s' = last_of pickR_steady ks (ts_current_steady s) /\
  ts_current_step s' = last_of pickR_step ks (ts_current_step s) /\ ts_duration s' = last_of pickR_duration ks (ts_duration s) /\
  ts_units s' = last_of pickR_units ks (ts_units s) /\ ts_weather s' = last_of pickR_weather ks (ts_weather s).
Proof.
  induction ks as [|k ks IH]; intros s S.
  { exists s. split; [reflexivity|]. split; [exact S|repeat split]. }
  cbn [ts_run]. destruct (ts_call_settled s k S) as (s1 & -> & S1 & A1 & A2 & A3 & A4 & A5 & A6). cbn [obind].
  destruct (IH s1 S1) as (s2 & E & S2 & B1 & B2 & B3 & B4 & B5 & B6). exists s2. split; [exact E|]. split; [exact S2|].
  rewrite B1, B2, B3, B4, B5, B6, A1, A2, A3, A4, A5, A6. repeat split.
Qed.

Theorem ts_history : forall ks, exists s, ts_run (@TransientSolver_default N) ks = Ok s /\ ts_same s (ts_renew s) /\
  ts_cable s = last_of pickR_cable ks None /\ ts_current_steady s = last_of pickR_steady ks ferr /\
  ts_current_step s = last_of pickR_step ks ferr /\ ts_duration s = last_of pickR_duration ks (-9999)%Z /\
  ts_units s = last_of pickR_units ks USNull /\ ts_weather s = last_of pickR_weather ks None.
Proof.
  intros ks. destruct (ts_run_settled ks (@TransientSolver_default N)) as (s & E & S & I); [intros H; discriminate H|].
  exists s. split; [exact E|]. split; [exact (ts_settled_same s S)|exact I].
Qed.

End Any.
