(** Caching of the thermal rating solvers, in any arithmetic. *)
From Coq Require Import ZArith Bool List Lia.
From Verif Require Import Num NumFacts ModelBase ModelCable ModelThermal SpecCatenary SpecThermal.
Import ListNotations.

Section Any.
Context {N : Num}.

(** ** Valid inputs *)
Lemma hs_Validate_inv : forall h : HeatSolver N, hs_Validate h = true ->
  exists b w, hs_cable h = Some (mkThermalRatingCable (Some b)) /\ hs_weather h = Some w /\ hs_units h <> USNull /\
    trc_Validate (mkThermalRatingCable (Some b)) = true /\ tw_Validate w = true.
Proof.
  intros [[[[b|]]|] u [w|]] H; unfold hs_Validate in H; cbn [hs_cable hs_units hs_weather] in *;
    try (rewrite ?andb_false_r in H; discriminate H); try discriminate H.
  apply andb_prop in H. destruct H as (H & W). apply andb_prop in H. destruct H as (C & U).
  exists b, w. repeat split; try assumption. intros ->. discriminate U.
Qed.

Lemma hs_valid : forall b u w, trc_Validate (mkThermalRatingCable (Some b)) = true -> tw_Validate w = true -> u <> USNull ->
  @hs_Validate N (mkHeatSolver (Some (mkThermalRatingCable (Some b))) u (Some w)) = true.
Proof.
  intros b u w C W U. unfold hs_Validate. cbn [hs_cable hs_units hs_weather]. rewrite C, W. destruct u; [congruence|reflexivity..].
Qed.

(** ** The current solver *)
Definition sums (b : Cable N) (u : UnitSystem) (w : ThermalRatingWeather N) (t : N) : HeatState N :=
  let cv := convection u (cb_diameter b) w t in
  let rd := radiation u b w t in
  let so := solar b w in
  mkHeatState cv rd (#(-1) * (cv + rd + so))%num so #0%num.

Definition amps (b : Cable N) (t : N) (s : HeatState N) : N :=
  let i := fsqrt (fabs (ht_resistance s) / table_resistance (cb_resistances b) t)%num in
  (if ht_resistance s <? #0 then i * #(-1) else i)%num.

Lemma current_state_cases : forall c (t : N) u w,
  (hs_Validate (mkHeatSolver c u w) = false /\ current_state c t u w = Ok None) \/
  (exists b w', c = Some (mkThermalRatingCable (Some b)) /\ w = Some w' /\ u <> USNull /\
     trc_Validate (mkThermalRatingCable (Some b)) = true /\ tw_Validate w' = true /\
     current_state c t u w = Ok (Some (sums b u w' t)) /\
     forall s, current_of c t s = Ok (amps b t s)).
Proof.
  intros c t u w. unfold current_state. destruct (hs_Validate _) eqn:V; [right|left; auto].
  destruct (hs_Validate_inv _ V) as (b & w' & E1 & E2 & U & VC & VW). cbn [hs_cable hs_weather hs_units] in *. subst c w.
  exists b, w'. repeat split; try assumption. cbn [negb].
  unfold hs_HeatConvection, hs_HeatRadiation, hs_HeatSolar, base_of.
  cbn [hs_cable hs_weather hs_units deref obind trc_base]. destruct u; [congruence|reflexivity..].
Qed.

Definition sc_inputs (s s' : CurrentSolver N) : Prop :=
  sc_cable s = sc_cable s' /\ sc_temperature s = sc_temperature s' /\ sc_units s = sc_units s' /\ sc_weather s = sc_weather s'.

(** What an update computes depends on the inputs only. *)
Definition sc_result (s : CurrentSolver N) : bool * (HeatState N * N) :=
  match current_state (sc_cable s) (sc_temperature s) (sc_units s) (sc_weather s) with
  | Ok (Some st) =>
      match current_of (sc_cable s) (sc_temperature s) st with
      | Ok i => (true, (st, i))
      | _ => (false, (HeatState_default, ferr))
      end
  | _ => (false, (HeatState_default, ferr))
  end.

Lemma sc_Update_result : forall s, exists s', sc_Update s = Ok (fst (sc_result s), s') /\ sc_inputs s' s /\
  sc_is_updated s' = fst (sc_result s) /\
  (fst (sc_result s) = true -> sc_state s' = fst (snd (sc_result s)) /\ sc_current s' = snd (snd (sc_result s))).
Proof.
  intros s. unfold sc_Update, sc_result.
  destruct (current_state_cases (sc_cable s) (sc_temperature s) (sc_units s) (sc_weather s)) as [(V & ->)|(b & w' & E1 & E2 & U & VC & VW & -> & A)].
  - cbn [obind]. eexists. repeat split. discriminate. discriminate.
  - cbn [obind]. rewrite A. cbn [obind]. eexists. repeat split.
Qed.

Lemma sc_result_inputs : forall s s', sc_inputs s s' -> sc_result s = sc_result s'.
Proof. intros s s' (A & B & C & D). unfold sc_result. rewrite A, B, C, D. reflexivity. Qed.

Lemma sc_inputs_renew : forall s, sc_inputs (sc_renew s) s.
Proof. intros s. repeat split. Qed.

Definition sc_settled (s : CurrentSolver N) : Prop := sc_is_updated s = true ->
  sc_result s = (true, (sc_state s, sc_current s)).

Lemma sc_ensure_result : forall s, sc_settled s -> exists s', sc_ensure s = Ok (fst (sc_result s), s') /\ sc_inputs s' s /\
  sc_is_updated s' = fst (sc_result s) /\
  (fst (sc_result s) = true -> sc_state s' = fst (snd (sc_result s)) /\ sc_current s' = snd (snd (sc_result s))).
Proof.
  intros s S. unfold sc_ensure. destruct (sc_is_updated s) eqn:E; [|apply sc_Update_result].
  rewrite (S E). cbn [fst snd]. exists s. repeat split. assumption.
Qed.

Lemma sc_settled_same : forall s, sc_settled s -> sc_same s (sc_renew s).
Proof.
  intros s S.
  destruct (sc_ensure_result s S) as (s1 & E1 & I1 & _ & R1).
  destruct (sc_ensure_result (sc_renew s)) as (s2 & E2 & I2 & _ & R2); [intros F; discriminate F|].
  rewrite (sc_result_inputs _ _ (sc_inputs_renew s)) in E2, R2.
  destruct (sc_Update_result s) as (s3 & E3 & _). destruct (sc_Update_result (sc_renew s)) as (s4 & E4 & _).
  rewrite (sc_result_inputs _ _ (sc_inputs_renew s)) in E4.
  unfold sc_same, sc_Current, sc_StateHeatTransfer, sc_Validate. rewrite E1, E2, E3, E4. cbn [obind omap fst snd].
  destruct (fst (sc_result s)) eqn:B.
  - destruct (R1 eq_refl) as (-> & ->). destruct (R2 eq_refl) as (-> & ->). repeat split.
  - repeat split.
Qed.

(** ** Histories of the current solver *)
Lemma sc_query_call : forall (s : CurrentSolver N) k, current_event k = EvQuery -> exists r, sc_ensure s = r /\ sc_call s k = omap snd r.
Proof.
  intros s k E. exists (sc_ensure s). split; [reflexivity|].
  destruct k; try discriminate E; cbn [sc_call]; unfold sc_Current, sc_StateHeatTransfer;
    destruct (sc_ensure s) as [[b s']| |]; reflexivity.
Qed.

Definition sc_known (answered dirty : bool) (s : CurrentSolver N) : Prop :=
  (sc_is_updated s = true -> answered = true) /\ (dirty = false -> sc_settled s).

Definition after_event (e : event) (a d : bool) : bool * bool :=
  match e with
  | EvReset => (false, false)
  | EvSoft => (a, orb d a)
  | EvQuery => (true, d)
  | EvValidate => (true, false)
  end.

Lemma stale_cons : forall e es a d, stale a d (e :: es) = stale (fst (after_event e a d)) (snd (after_event e a d)) es.
Proof. intros [] es a d; reflexivity. Qed.

Lemma sc_call_known : forall (s : CurrentSolver N) k a d, sc_known a d s ->
  exists s', sc_call s k = Ok s' /\ sc_known (fst (after_event (current_event k) a d)) (snd (after_event (current_event k) a d)) s'.
Proof.
  intros s k a d (K1 & K2).
  assert (E : sc_is_updated s = true -> exists s', sc_ensure s = Ok (true, s') /\ s' = s).
  { intros U. unfold sc_ensure. rewrite U. exists s. auto. }
  assert (Upd : exists b s', sc_Update s = Ok (b, s') /\ sc_settled s').
  { destruct (sc_Update_result s) as (s' & E1 & I1 & U1 & R1). exists (fst (sc_result s)), s'. split; [exact E1|].
    intros U. rewrite U1 in U. rewrite (sc_result_inputs _ _ I1). destruct (R1 U) as (-> & ->).
    destruct (sc_result s) as [b [st i]]. cbn [fst snd] in *. rewrite U. reflexivity. }
  assert (Q : current_event k = EvQuery -> exists s', sc_call s k = Ok s' /\ sc_known true d s').
  { intros C. destruct (sc_query_call s k C) as (r & Er & ->). subst r. destruct (sc_is_updated s) eqn:U.
    - destruct (E eq_refl) as (s' & -> & ->). exists s. split; [reflexivity|]. split; [auto|]. exact K2.
    - unfold sc_ensure. rewrite U. destruct Upd as (b & s' & -> & S'). exists s'. split; [reflexivity|]. split; auto. }
  destruct k; cbn [current_event after_event fst snd];
    try (apply Q; reflexivity);
    try (cbn [sc_call]; eexists; split; [reflexivity|]; split; [intros H; discriminate H|intros _ H; discriminate H]);
    try (cbn [sc_call]; eexists; split; [reflexivity|]; split; [exact K1|]; intros D H; apply orb_false_iff in D; destruct D as (_ & ->); specialize (K1 H); discriminate K1).
  destruct Upd as (b & s' & E1 & S'). exists s'. cbn [sc_call]. unfold sc_Validate. rewrite E1. cbn [obind omap snd].
  split; [reflexivity|]. split; auto.
Qed.

Lemma sc_run_known : forall ks s a d, sc_known a d s ->
  exists s', sc_run s ks = Ok s' /\ (stale a d (map current_event ks) = false -> sc_settled s').
Proof.
  induction ks as [|k ks IH]; intros s a d K.
  { exists s. split; [reflexivity|]. cbn [map stale]. apply K. }
  cbn [map sc_run]. rewrite stale_cons. destruct (sc_call_known s k a d K) as (s1 & -> & K1). cbn [obind].
  apply IH with (1 := K1).
Qed.

Lemma sc_default_known : sc_known false false (@CurrentSolver_default N).
Proof. split; [intros H; discriminate H|intros _ H; discriminate H]. Qed.

(** Which values the inputs have. *)
Lemma sc_ensure_inputs : forall s b s', sc_ensure s = Ok (b, s') -> sc_inputs s' s.
Proof.
  intros s b s'. unfold sc_ensure. destruct (sc_is_updated s).
  - intros H. injection H as _ <-. repeat split.
  - destruct (sc_Update_result s) as (s1 & -> & I & _). intros H. injection H as _ <-. exact I.
Qed.

Lemma sc_call_inputs : forall (s : CurrentSolver N) k s', sc_call s k = Ok s' ->
  sc_cable s' = last_of pickC_cable [k] (sc_cable s) /\ sc_temperature s' = last_of pickC_temperature [k] (sc_temperature s) /\
  sc_units s' = last_of pickC_units [k] (sc_units s) /\ sc_weather s' = last_of pickC_weather [k] (sc_weather s).
Proof.
  intros s k s' H.
  assert (Q : current_event k = EvQuery -> sc_inputs s' s).
  { intros C. destruct (sc_query_call s k C) as (r & Er & E). subst r. rewrite E in H.
    destruct (sc_ensure s) as [[b s1]| |] eqn:R; cbn [omap obind snd] in H; try discriminate H.
    injection H as <-. exact (sc_ensure_inputs _ _ _ R). }
  destruct k; cbn [last_of pickC_cable pickC_temperature pickC_units pickC_weather];
    try (cbn [sc_call] in H; injection H as <-; repeat split);
    try (apply Q; reflexivity).
  all: cbn [sc_call] in H; unfold sc_Validate in H; destruct (sc_Update_result s) as (s1 & E & I & _); rewrite E in H;
    cbn [obind omap snd] in H; injection H as <-; apply I.
Qed.

Lemma sc_run_inputs : forall ks (s : CurrentSolver N) s', sc_run s ks = Ok s' ->
  sc_cable s' = last_of pickC_cable ks (sc_cable s) /\ sc_temperature s' = last_of pickC_temperature ks (sc_temperature s) /\
  sc_units s' = last_of pickC_units ks (sc_units s) /\ sc_weather s' = last_of pickC_weather ks (sc_weather s).
Proof.
  induction ks as [|k ks IH]; intros s s' H.
  { cbn in H. injection H as <-. repeat split. }
  cbn [sc_run] in H. destruct (sc_call s k) as [s1| |] eqn:C; cbn [obind] in H; try discriminate H.
  destruct (sc_call_inputs _ _ _ C) as (A & B & D & E). destruct (IH _ _ H) as (A' & B' & D' & E').
  rewrite A', B', D', E', A, B, D, E. repeat split.
Qed.

Theorem sc_history : forall ks, exists s, sc_run (@CurrentSolver_default N) ks = Ok s /\
  (stale false false (map current_event ks) = false -> sc_same s (sc_renew s)) /\
  sc_cable s = last_of pickC_cable ks None /\ sc_temperature s = last_of pickC_temperature ks ferr /\
  sc_units s = last_of pickC_units ks USNull /\ sc_weather s = last_of pickC_weather ks None.
Proof.
  intros ks. destruct (sc_run_known ks _ _ _ sc_default_known) as (s & R & S). exists s. split; [exact R|]. split.
  - intros H. exact (sc_settled_same s (S H)).
  - exact (sc_run_inputs ks _ s R).
Qed.

(** Cache of a current solver, whatever the history: it belongs to the cable and the
    temperature in force and to some unit system and weather. *)
Definition sc_based (s : CurrentSolver N) : Prop := sc_is_updated s = true ->
  exists u w, sc_result (sc_fresh (sc_cable s) (sc_temperature s) u w) = (true, (sc_state s, sc_current s)).

Lemma sc_Update_based : forall s b s', sc_Update s = Ok (b, s') -> sc_based s'.
Proof.
  intros s b s' H. destruct (sc_Update_result s) as (s1 & E & I & U & R). rewrite E in H. injection H as _ <-.
  intros F. rewrite U in F. destruct (R F) as (-> & ->). exists (sc_units s), (sc_weather s).
  destruct I as (I1 & I2 & _). rewrite I1, I2. fold (sc_renew s). rewrite (sc_result_inputs _ _ (sc_inputs_renew s)).
  destruct (sc_result s) as [c [st i]]. cbn [fst snd] in *. rewrite F. reflexivity.
Qed.

Lemma sc_call_based : forall s k s', sc_call s k = Ok s' -> sc_based s -> sc_based s'.
Proof.
  intros s k s' H B.
  assert (Q : current_event k = EvQuery -> sc_based s').
  { intros C. destruct (sc_query_call s k C) as (r & Er & E). subst r. rewrite E in H.
    unfold sc_ensure in H. destruct (sc_is_updated s).
    - cbn in H. injection H as <-. exact B.
    - destruct (sc_Update s) as [[b s1]| |] eqn:R; cbn [omap obind snd] in H; try discriminate H.
      injection H as <-. exact (sc_Update_based _ _ _ R). }
  destruct k; try (apply Q; reflexivity); cbn [sc_call] in H; try (injection H as <-; first [exact B|intros F; discriminate F]).
  unfold sc_Validate in H. destruct (sc_Update s) as [[b s1]| |] eqn:R; cbn [omap obind snd] in H; try discriminate H.
  injection H as <-. exact (sc_Update_based _ _ _ R).
Qed.

Lemma sc_run_based : forall ks s s', sc_run s ks = Ok s' -> sc_based s -> sc_based s'.
Proof.
  induction ks as [|k ks IH]; intros s s' H B.
  { cbn in H. injection H as <-. exact B. }
  cbn [sc_run] in H. destruct (sc_call s k) as [s1| |] eqn:C; cbn [obind] in H; try discriminate H.
  exact (IH _ _ H (sc_call_based _ _ _ C B)).
Qed.

(** The current and the state of one solver belong together. *)
Lemma sc_pair : forall s i st, sc_based s -> omap fst (sc_Current s) = Ok i -> omap fst (sc_StateHeatTransfer s) = Ok st ->
  (i = ferr /\ st = HeatState_default) \/
  exists b u w, sc_cable s = Some (mkThermalRatingCable (Some b)) /\ u <> USNull /\
    trc_Validate (mkThermalRatingCable (Some b)) = true /\ tw_Validate w = true /\
    st = sums b u w (sc_temperature s) /\ i = amps b (sc_temperature s) st.
Proof.
  intros s i st B. unfold sc_Current, sc_StateHeatTransfer.
  assert (X : forall t c u w st0 i0, sc_result (sc_fresh c t u w) = (true, (st0, i0)) ->
    exists b w', c = Some (mkThermalRatingCable (Some b)) /\ u <> USNull /\
    trc_Validate (mkThermalRatingCable (Some b)) = true /\ tw_Validate w' = true /\ st0 = sums b u w' t /\ i0 = amps b t st0).
  { intros t c u w st0 i0. unfold sc_result. cbn [sc_fresh sc_set_weather sc_set_units sc_set_temperature sc_set_cable sc_cable sc_temperature sc_units sc_weather].
    destruct (current_state_cases c t u w) as [(V & ->)|(b & w' & E1 & E2 & U & VC & VW & -> & A)]; [discriminate|].
    rewrite A. intros H. injection H as <- <-. exists b, w'. auto 10. }
  unfold sc_ensure. destruct (sc_is_updated s) eqn:U.
  - cbn [obind omap fst]. intros H1 H2. injection H1 as <-. injection H2 as <-. right.
    destruct (B U) as (u & w & E). destruct (X _ _ _ _ _ _ E) as (b & w' & Y). exists b, u, w'. exact Y.
  - destruct (sc_Update_result s) as (s' & -> & I & V & R). cbn [obind omap fst]. destruct (fst (sc_result s)) eqn:F.
    + destruct (R eq_refl) as (-> & ->). intros H1 H2. injection H1 as <-. injection H2 as <-. right.
      destruct (X (sc_temperature s) (sc_cable s) (sc_units s) (sc_weather s) (fst (snd (sc_result s))) (snd (snd (sc_result s)))) as (b & w' & Y).
      { fold (sc_renew s). rewrite (sc_result_inputs _ _ (sc_inputs_renew s)). destruct (sc_result s) as [c [x y]]. cbn [fst snd] in *. rewrite F. reflexivity. }
      exists b, (sc_units s), w'. exact Y.
    + intros H1 H2. injection H1 as <-. injection H2 as <-. left. auto.
Qed.

End Any.
