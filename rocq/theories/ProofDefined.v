(** When the calls on the sag position corrector return. *)
From Coq Require Import ZArith Bool List Lia.
From Verif Require Import Num ModelBase ModelAlignment ModelLine ModelCatenary SpecCatenary ModelCable ModelLoad ModelElongation ModelReload ModelThermal
  ModelSagtension ModelSagging ModelLocator SpecSagging SpecSagSafe SpecDefined ProofSagging ProofCorrector.
Import ListNotations.
Open Scope num_scope.
Open Scope list_scope.

Section Defined.
Context {N : Num}.

Lemma verdict_fst : forall (A B : Type) (a b : outcome (A * B)), omap fst a = omap fst b -> verdict a = verdict b.
Proof. intros A B [x| |] [y| |] H; cbn in *; congruence. Qed.

Lemma span_defined : forall s : Stringing N, match sr_cable s, co_weather (sr_constraint s) with
  | Some _, Some _ => exists c, CatenaryRulingSpan s = Ok c
  | _, _ => CatenaryRulingSpan s = UB
  end.
Proof.
  intros s. unfold CatenaryRulingSpan, ModelSagtension.unit_load.
  destruct (sr_cable s) as [c|]; [|reflexivity]. destruct (co_weather (sr_constraint s)) as [w|]; [|reflexivity].
  cbn [deref obind]. unfold UnitCableLoad. cbn. eexists. reflexivity.
Qed.

(** ** The pulley state of one span or more is always found or not found *)
Lemma Solve_defined : forall (cs : list (Catenary3d N)) h, cs <> [] -> exists ok ds, SolvePulleyStateTensions cs h = Ok (ok, ds) /\ ds <> [].
Proof.
  intros [|c cs] h H; [contradiction|]. cbn [SolvePulleyStateTensions]. destruct (solve_spans _ _ cs) as [ok ds].
  exists ok, (c3_set_tension c h :: ds). split; [reflexivity|discriminate].
Qed.

Lemma loop_defined : forall (goal : N) fuel s, pu_catenaries s <> [] -> exists ok s', pulley_loop goal fuel s = Ok (ok, s').
Proof.
  intros goal. induction fuel as [|fuel IH]; intros s H; cbn [pulley_loop]; [exists true, s; reflexivity|].
  destruct (pulley_continues goal s); [|exists true, s; reflexivity].
  unfold pulley_pass. cbv zeta. edestruct (Solve_defined (pu_catenaries s)) as (ok & ds & E & D); [exact H|]. rewrite E. cbn [obind].
  destruct ok; cbn [obind].
  - match goal with |- context [let '(l, r) := ?p in _] => destruct p as [l r] end. cbn [obind]. apply IH. exact D.
  - eexists; eexists; reflexivity.
Qed.

Lemma pulleyed_defined : forall cs : list (Catenary3d N), verdict (pulleyed_of cs) = match cs with [] => UB | _ => Ok tt end.
Proof.
  intros cs. unfold pulleyed_of, UpdatePulleyState. cbn [pc_clipped pc_length_clipped]. destruct cs as [|c cs]; [reflexivity|].
  cbn [obind]. edestruct (Solve_defined (c :: cs)) as (ok & ds & E & D); [discriminate|]. rewrite E. clear E. cbn [obind].
  destruct ok; [|reflexivity].
  edestruct (Solve_defined ds) as (ok & es & E & D'); [exact D|]. rewrite E. cbn [obind]. destruct ok; [|reflexivity].
  match goal with |- context [pulley_loop ?g ?f ?s] => destruct (loop_defined g f s) as (ok & t & L); [exact D'|]; rewrite L end.
  cbn [obind]. destruct (ok && _); reflexivity.
Qed.

Lemma corrected_verdict : forall l (ps : option (list (Point3d N))), verdict (corrected_of l ps) = corrector_verdict l ps.
Proof.
  intros [l|] ps; [|reflexivity]. unfold corrected_of, clipped_of, corrector_verdict. cbn [deref obind].
  generalize (span_defined (lc_payload l)).
  destruct (sr_cable (lc_payload l)) as [cb|]; [|intros ->; reflexivity].
  destruct (co_weather (sr_constraint (lc_payload l))) as [w|]; [|intros ->; reflexivity].
  intros (c & ->). cbn [obind]. destruct (c3_Validate c); [|reflexivity].
  destruct ps as [[|p [|q ps]]|]; cbn [deref obind clipped_spans]; try reflexivity.
  match goal with |- context [pulleyed_of ?cs] => generalize (pulleyed_defined cs); destruct (pulleyed_of cs) as [[[x y]|]| |] end;
    cbn; intros H; congruence.
Qed.

Lemma corrections_defined : forall c p : list (Catenary3d N), length p = length c -> exists r, corrections_loop c p = Ok r.
Proof.
  induction c as [|c cs IH]; intros [|p ps] H; try discriminate H; cbn [corrections_loop]; [eexists; reflexivity|].
  cbn [length] in H. destruct (IH ps) as (r & ->); [congruence|]. eexists. reflexivity.
Qed.

Lemma offsets_defined : forall (c p : list (Catenary3d N)) x y, length p = length c -> exists r, offsets_loop x y c p = Ok r.
Proof.
  induction c as [|c cs IH]; intros [|p ps] x y H; try discriminate H; cbn [offsets_loop]; [eexists; reflexivity|].
  cbn [length] in H. destruct cs as [|d cs]; [eexists; reflexivity|].
  edestruct (IH ps) as (r & ->); [congruence|]. eexists. reflexivity.
Qed.

Lemma corrected_lengths : forall l (ps : option (list (Point3d N))) c p n, corrected_of l ps = Ok (Some (c, p, n)) -> length p = length c.
Proof.
  intros l ps c p n H. unfold corrected_of in H. destruct (clipped_of l ps) as [[c'|]| |]; try discriminate H. cbn [obind] in H.
  destruct (pulleyed_of c') as [[[p' n']|]| |] eqn:E; try discriminate H. cbn [obind] in H. injection H as <- <- <-.
  apply (pulleyed_length _ _ _ E).
Qed.

Lemma connections_defined : forall env (l : Strung N), fastened env l -> exists b, ValidateConnections env (lc_connections l) = Ok b.
Proof.
  intros env l H. unfold ValidateConnections. destruct (Nat.ltb (length (lc_connections l)) 2) eqn:E; [eexists; reflexivity|].
  destruct H as [H|H]; [apply Nat.ltb_lt in H; congruence|].
  assert (K : exists b, ValidateConnections_loop env (lc_connections l) = Ok b).
  { clear E. induction H as [|c cs (s & h & D & V) _ IH]; [eexists; reflexivity|].
    cbn [ValidateConnections_loop]. rewrite D. cbn [obind]. rewrite V. cbn [obind]. exact IH. }
  destruct K as (b & ->). eexists. reflexivity.
Qed.

Lemma strung_defined : forall env (l : Strung N), fastened env l -> exists b, Strung_Validate env l = Ok b.
Proof.
  intros env l H. unfold Strung_Validate. destruct (Stringing_inputs_valid (lc_payload l)) eqn:V; [|eexists; reflexivity].
  generalize (span_defined (lc_payload l)). unfold Stringing_inputs_valid, Constraint_Validate, weather_valid in V.
  destruct (sr_cable (lc_payload l)) as [cb|]; [|discriminate V].
  destruct (co_weather (sr_constraint (lc_payload l))) as [w|]; [|rewrite andb_false_r in V; discriminate V].
  intros (c & ->). cbn [obind]. destruct (connections_defined env l H) as (b & ->). eexists. reflexivity.
Qed.

(** What all calls of a current object do. *)
Lemma corrector_calls : forall s : Corrector N, pc_current s ->
  let v := corrector_verdict (pc_linecable s) (pc_points s) in
  verdict (CatenariesClipped s) = v /\ verdict (CatenariesPulleyed s) = v /\ verdict (ClippingOffsets s) = v /\
  verdict (SagCorrections s) = v /\
  forall env, (forall l, pc_linecable s = Some l -> fastened env l) -> verdict (pc_Validate env s) = v.
Proof.
  intros s C v. assert (Ev : verdict (corrected_of (pc_linecable s) (pc_points s)) = v) by apply corrected_verdict. clearbody v.
  assert (Q : verdict (CatenariesClipped s) = v /\ verdict (CatenariesPulleyed s) = v /\ verdict (ClippingOffsets s) = v /\ verdict (SagCorrections s) = v).
  { generalize (pc_ensure_of s C). unfold CatenariesClipped, CatenariesPulleyed, ClippingOffsets, SagCorrections.
    destruct (corrected_of (pc_linecable s) (pc_points s)) as [[[[c p] n]|]| |] eqn:E; cbn [verdict] in Ev; subst v.
    - intros (t & -> & T1 & T2 & _). cbn [obind]. rewrite T1, T2. pose proof (corrected_lengths _ _ _ _ _ E) as L.
      edestruct (offsets_defined c p) as (r & ->); [exact L|]. destruct (corrections_defined c p L) as (r' & ->). cbn. auto.
    - intros (t & ->). cbn. auto.
    - intros ->. cbn. auto.
    - intros ->. cbn. auto. }
  destruct Q as (Q1 & Q2 & Q3 & Q4). repeat split; try assumption.
  intros env F. unfold pc_Validate.
  assert (V : exists b, match pc_linecable s with None => Ok false | Some l => Strung_Validate env l end = Ok b).
  { destruct (pc_linecable s) as [l|]; [apply strung_defined, F; reflexivity|eexists; reflexivity]. }
  destruct V as (b & ->). cbn [obind]. generalize (pc_Update_of s).
  destruct (corrected_of (pc_linecable s) (pc_points s)) as [[[[c p] n]|]| |]; cbn [verdict] in Ev; subst v.
  - intros ->. reflexivity.
  - intros (t & -> & _). reflexivity.
  - intros ->. reflexivity.
  - intros ->. reflexivity.
Qed.

End Defined.

Lemma corrector_verdicts : forall (N : Num) (ks : list (PcCall N)) s, pc_run Corrector_new ks = Ok s ->
  let l := last_of pickPc_linecable ks None in
  let v := corrector_verdict l (last_of pickPc_points ks None) in
  verdict (CatenariesClipped s) = v /\ verdict (CatenariesPulleyed s) = v /\ verdict (ClippingOffsets s) = v /\
  verdict (SagCorrections s) = v /\
  forall env, (forall line, l = Some line -> fastened env line) -> verdict (pc_Validate env s) = v.
Proof.
  intros N ks s H. destruct (pc_run_current ks Corrector_new s ltac:(intros U; discriminate U) H) as (C & R).
  cbn [pc_linecable pc_points Corrector_new] in R.
  assert (R1 := f_equal pc_linecable R). assert (R2 := f_equal pc_points R). cbn [pc_linecable pc_points pc_renew pc_fresh pc_set_points pc_set_linecable] in R1, R2.
  rewrite <- R1, <- R2. exact (corrector_calls s C).
Qed.
