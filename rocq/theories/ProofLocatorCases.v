(** Findings about the locator and the equilibrium solver. *)
From Coq Require Import ZArith Bool List Reals Lra Lia.
From Verif Require Import Num NumFacts ModelBase ModelAlignment ModelLine ModelCatenary SpecCatenary ModelThermal ModelLocator SpecLocator
  ProofLocator ProofLocatorShape ProofLocatorReal ProofReal ProofLocatorCase SampleMath SampleLocator.
Import ListNotations.
Open Scope num_scope.

Lemma inner_found : forall l w f, k_inner (k_loc l w) f = true ->
  exists s s' a p b, pl_run Locator_new (k_calls l w) = Ok s /\ pl_Validate (Ok true) s = Ok (true, s') /\
    PointsCableAttachment s' = Ok (Some [a; p; b], s') /\ f p = true.
Proof.
  intros l w f H. unfold k_inner in H. destruct (pl_Validate (Ok true) (k_loc l w)) as [[[|] s']| |] eqn:V; try discriminate H.
  apply andb_prop in H. destruct H as (U & H). destruct (pl_cable s') as [|a [|p [|b [|? ?]]]] eqn:C; try discriminate H.
  exists (k_loc l w), s', a, p, b. split; [reflexivity|]. split; [exact V|]. split; [|exact H].
  unfold PointsCableAttachment, pl_ensure. rewrite U. cbn [obind]. rewrite C. reflexivity.
Qed.

Ltac found H := let s := fresh "s" in let s' := fresh "s'" in let a := fresh "a" in let p := fresh "p" in let b := fresh "b" in
  destruct (inner_found _ _ _ H) as (s & s' & a & p & b & ? & ? & ? & ?).

Lemma wind_along : exists s s' a p b, pl_run Locator_new (k_calls (k_line 90 0) 1) = Ok s /\ pl_Validate (Ok true) s = Ok (true, s') /\
  PointsCableAttachment s' = Ok (Some [a; p; b], s') /\
  (m64 1007 <? p3y p = true) /\ (m64 1 <? p3x p = true).
Proof.
  destruct (inner_found _ _ _ k_wind) as (s & s' & a & p & b & E1 & E2 & E3 & E4). exists s, s', a, p, b.
  unfold between in E4. repeat (apply andb_prop in E4; let F := fresh in destruct E4 as (E4 & F); try (apply andb_prop in F; destruct F as (F & _))).
  auto.
Qed.

Lemma turned_line : exists s0 t0 a0 p0 b0 s1 t1 a1 p1 b1,
  pl_run Locator_new (k_calls (k_line 0 (-30)) 0) = Ok s0 /\ pl_Validate (Ok true) s0 = Ok (true, t0) /\
  PointsCableAttachment t0 = Ok (Some [a0; p0; b0], t0) /\
  pl_run Locator_new (k_calls (k_line 90 (-30)) 0) = Ok s1 /\ pl_Validate (Ok true) s1 = Ok (true, t1) /\
  PointsCableAttachment t1 = Ok (Some [a1; p1; b1], t1) /\
  (m64 10 * p3y p0 <? m64 (-90) = true) /\ (p3x p1 <? m64 (-9) = true) /\ (p3x p0 <? m64 998 = true) /\ (m64 1002 <? p3y p1 = true).
Proof.
  destruct (inner_found _ _ _ k_turn0) as (s & s' & a & p & b & E1 & E2 & E3 & E4).
  destruct (inner_found _ _ _ k_turn90) as (t & t' & c & q & d & F1 & F2 & F3 & F4).
  unfold between in E4, F4. apply andb_prop in E4, F4. destruct E4 as (X1 & Y1), F4 as (X2 & Y2).
  apply andb_prop in X1, Y1, X2, Y2. exists s, s', a, p, b, t, t', c, q, d. tauto.
Qed.

Lemma wind_against : exists s0 t0 a0 p0 b0 s1 t1 a1 p1 b1,
  pl_run Locator_new (k_calls (k_line 0 (-30)) 0) = Ok s0 /\ pl_Validate (Ok true) s0 = Ok (true, t0) /\
  PointsCableAttachment t0 = Ok (Some [a0; p0; b0], t0) /\
  pl_run Locator_new (k_calls (k_line 0 (-30)) 1) = Ok s1 /\ pl_Validate (Ok true) s1 = Ok (true, t1) /\
  PointsCableAttachment t1 = Ok (Some [a1; p1; b1], t1) /\
  (m64 (-91) <? m64 10 * p3y p0 = true) /\ (m64 10 * p3y p1 <? m64 (-92) = true).
Proof.
  destruct (inner_found _ _ _ k_turn0) as (s & s' & a & p & b & E1 & E2 & E3 & E4).
  destruct (inner_found _ _ _ k_turn0_wind) as (t & t' & c & q & d & F1 & F2 & F3 & F4).
  unfold between in E4, F4. apply andb_prop in E4, F4. destruct E4 as (X1 & Y1), F4 as (X2 & Y2).
  apply andb_prop in X1, Y1, X2, Y2. exists s, s', a, p, b, t, t', c, q, d. tauto.
Qed.

Lemma uplift : exists s s' x s'', ae_run Equilibrium_new k_valley = Ok s /\ ae_Validate s = Ok (true, s') /\
  ae_AngleEquilibrium s' = Ok (x, s'') /\ (x <? m64 90 = true).
Proof.
  assert (H := k_uplift_ok). unfold k_uplift in H. destruct (ae_Validate k_valley_solver) as [[[|] s']| |] eqn:V; try discriminate H.
  destruct (ae_AngleEquilibrium s') as [[x s'']| |] eqn:A; try discriminate H.
  exists k_valley_solver, s', x, s''. split; [reflexivity|]. auto.
Qed.

(** Missing inputs. *)
Section Missing.
Context {N : Num} {P : Type}.
Implicit Types s : Locator N P.

Lemma update_missing : forall s, (pl_line s = None \/ exists l, pl_line s = Some l /\
    (pl_index s < 0 \/ Z.of_nat (length (tl_line_cables l)) <= pl_index s)%Z) -> pl_Update s = UB.
Proof.
  intros s [L|(l & L & I)]; unfold pl_Update; rewrite L; [reflexivity|]. cbn [deref obind].
  assert (E : next_deref (tl_line_cables l) (pl_index s) = UB); [|rewrite E; reflexivity].
  unfold next_deref. destruct (Z.ltb_spec (pl_index s) 0); [reflexivity|].
  replace (nth_error _ _) with (@None (LineCable N P)); [reflexivity|]. symmetry. apply nth_error_None. lia.
Qed.

Lemma missing_ub : forall ks s, pl_run (@Locator_new N P) ks = Ok s ->
  (pl_line s = None \/ exists l, pl_line s = Some l /\ (pl_index s < 0 \/ Z.of_nat (length (tl_line_cables l)) <= pl_index s)%Z) ->
  PointsCableAttachment s = UB /\ (forall index num, PointsCable s index num = UB) /\
  (forall parts, is_ok (pl_Validate parts s) = false) /\ (pl_line s = None -> forall parts, pl_Validate parts s = UB).
Proof.
  intros ks s RUN H. assert (U := update_missing s H). assert (C := run_current ks s RUN).
  assert (E : pl_ensure s = UB).
  { unfold pl_ensure. destruct (pl_updated s) eqn:B; [|exact U]. specialize (C B). rewrite U in C. discriminate C. }
  split; [unfold PointsCableAttachment; rewrite E; reflexivity|]. split; [intros; unfold PointsCable; rewrite E; reflexivity|].
  assert (NL : pl_line s = None -> forall parts, pl_Validate parts s = UB).
  { intros L parts. unfold pl_Validate. rewrite L. cbn [obind]. rewrite U. reflexivity. }
  split; [|exact NL]. intros parts. destruct H as [L|(l & L & I)]; [rewrite (NL L); reflexivity|].
  destruct (pl_Validate parts s) as [[b s']| |] eqn:V; try reflexivity. exfalso.
  unfold pl_Validate in V. rewrite L in V. destruct (Line_Validate l parts) as [l1 [v| |]] eqn:LV; try discriminate V. cbn [obind] in V.
  match type of V with context [pl_Update ?t] => assert (UT : pl_Update t = UB) end.
  { apply update_missing. right. exists l1. split; [reflexivity|]. cbn [pl_index].
    unfold Line_Validate in LV. destruct parts as [x| |]; try discriminate LV.
    destruct (Update l) as [l2 [y| |]] eqn:UL; try discriminate LV; injection LV as <- _; destruct (Update_like _ _ _ UL) as (_ & -> & _); exact I. }
  rewrite UT in V. discriminate V.
Qed.
End Missing.

(** Without a unit weight. *)
Definition r_unweighted : Locator RNum unit := pl_fresh ADPositive 0 (Some r_line) (1 / 100)%R None.
Lemma weightless : PointsCableAttachment r_unweighted = UB /\ (forall index num, PointsCable r_unweighted index num = UB) /\
  pl_Validate (Ok true) r_unweighted = UB.
Proof.
  assert (U : pl_Update r_unweighted = UB).
  { unfold pl_Update. change (pl_line r_unweighted) with (Some r_line). cbn [deref obind].
    change (next_deref (tl_line_cables r_line) (pl_index r_unweighted)) with (@Ok (LineCable RNum unit) (mkLC (N := RNum) r_cs tt)). cbn [obind lc_connections].
    rewrite r_data. reflexivity. }
  assert (E : pl_ensure r_unweighted = UB) by exact U.
  split; [unfold PointsCableAttachment; rewrite E; reflexivity|]. split; [intros; unfold PointsCable; rewrite E; reflexivity|].
  unfold pl_Validate. change (pl_line r_unweighted) with (Some r_line). unfold Line_Validate. rewrite r_update. cbn [obind].
  match goal with |- context [pl_Update ?t] => assert (UT : pl_Update t = UB) end.
  { unfold pl_Update. match goal with |- context [pl_line ?t] => change (pl_line t) with (Some r_updated) end. cbn [deref obind].
    match goal with |- context [next_deref ?a ?b] => change (next_deref a b) with (@Ok (LineCable RNum unit) (mkLC (N := RNum) r_cs tt)) end. cbn [obind lc_connections].
    destruct (data_again _ _ _ _ r_data) as (D & _). rewrite D. reflexivity. }
  rewrite UT. reflexivity.
Qed.

(** C51 at the last index. *)
Lemma last_index : exists s ps s', pl_run Locator_new r_calls = Ok s /\ PointsCableAttachment s = Ok (Some ps, s') /\ length ps = 3%nat /\
  forall num, PointsCable s 2 num = UB.
Proof.
  destruct r_located as (z & s' & L & _). eexists r_loc, _, s'. split; [exact r_run|]. split; [exact L|]. split; [reflexivity|].
  intros num. apply (points_bounds r_loc _ s' (run_current _ _ r_run) L 2 num). cbn. lia.
Qed.

(** The locator of the line in exact arithmetic. *)
Open Scope R_scope.
Lemma located : exists s s' ps l cs p0 p1 p2 h, pl_run (@Locator_new RNum unit) r_calls = Ok s /\
  PointsCableAttachment s = Ok (Some ps, s') /\ length ps = 3%nat /\ cable_connections s' l cs /\ length cs = 3%nat /\
  (exists c0 c1 c2, cs = [c0; c1; c2] /\ attached l c0 p0 /\ attached l c1 p1 /\ attached l c2 p2 /\ hangs_on l c1 h) /\
  p0 = pt 0 0 100 /\ p1 = pt 1000 0 100 /\ p2 = pt 2000 0 100 /\ (hw_length h : R) = 10 /\
  (exists a b w, nth_error ps 0 = Some a /\ nth_error ps 1 = Some b /\ (p3x a : R) <> p3x b /\ pl_weight s' = Some w /\ (v3x w : R) = 0 /\
     0 <= v3y w /\ 0 < v3z w /\ 0 < pl_tension s').
Proof.
  destruct r_located as (z & s' & L & E1 & E2 & E3 & E4).
  eexists r_loc, s', _, r_updated, r_cs, (pt 0 0 100), (pt 1000 0 100), (pt 2000 0 100), (r_hw Suspension).
  split; [exact r_run|]. split; [exact L|]. split; [reflexivity|]. split.
  { split; [exact E1|]. rewrite E2. exists (mkLC (N := RNum) r_cs tt). split; reflexivity. }
  split; [reflexivity|]. split.
  { eexists _, _, _. split; [reflexivity|]. unfold attached.
    assert (A := r_attachment 0 ltac:(auto)). assert (B := r_attachment 1 ltac:(auto)). assert (C := r_attachment 2 ltac:(auto)).
    replace (1000 * 0) with 0 in A by ring. replace (1000 * 1) with 1000 in B by ring. replace (1000 * 2) with 2000 in C by ring.
    split; [exact (f_equal snd A)|]. split; [exact (f_equal snd B)|]. split; [exact (f_equal snd C)|].
    eexists. split; reflexivity. }
  split; [reflexivity|]. split; [reflexivity|]. split; [reflexivity|]. split; [reflexivity|].
  eexists _, _, _. split; [reflexivity|]. split; [reflexivity|]. split.
  { destruct (r_point z) as (q & -> & X & _). apply Rabs_both in X. cbn [pt p3x]. change (F RNum) with R in *. lra. }
  split; [exact E3|]. split; [reflexivity|]. unfold r_weight. cbn [v3y v3z]. rewrite E4. change (F RNum) with R in *. split; [|split]; lra.
Qed.
