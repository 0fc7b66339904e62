(** Level spans (catenary.cc, stopwatch_sagger.cc), for all objects that histories of calls
    can produce, in exact arithmetic. *)
From Coq Require Import ZArith Bool List Reals Lra.
From Verif Require Import Num NumFacts ModelBase ModelCatenary SpecCatenary SpecCatenary3 ModelSagging SpecSagging
  ProofReal ProofCatenary ProofCatenary3 ProofTransitCases ProofLevel.
Import ListNotations.
Open Scope R_scope.

(** C175 *)
Theorem level_span : forall cks, let c := c3_run (@Catenary3d_default RNum) cks in
  usable3 c -> (v3z (c3_spacing c) : R) = 0 -> let s : R := c3_Sag c in let k : R := c3_Constant c in
  let w := length3 (v3x (c3_weight c)) (v3y (c3_weight c)) (v3z (c3_weight c)) in
  k * w = c3_tension_horizontal c /\ 0 < k /\ 0 < s /\
  c3_Length c * c3_Length c = 4 * (s * s) + 8 * (k * s) /\ c3_TensionMax c = c3_tension_horizontal c + w * s :> R /\
  v3x (c3_spacing c) * v3x (c3_spacing c) < 8 * (k * s).
Proof. exact level_law. Qed.
Print Assumptions level_span.

(** A span of 400 blown by wind: with a constant of 400 the sag is above 50, and the highest
    tension is above 2250. *)
Definition blown_calls : list (C3Call RNum) :=
  [ C3SetSpacing (mkVector3d (N := RNum) (400 : R) (0 : R) (0 : R)); C3SetTension (N := RNum) (1000 : R); C3Query true;
    C3SetWeight (mkVector3d (N := RNum) (0 : R) (3 : R) (4 : R)); C3SetTension (N := RNum) (2000 : R); C3SetDirection ADPositive ].
Example level_span_case : let c := c3_run (@Catenary3d_default RNum) blown_calls in
  usable3 c /\ (v3z (c3_spacing c) : R) = 0 /\ 50 < c3_Sag c /\ 2250 < c3_TensionMax c.
Proof.
  intros c. assert (U : usable3 c) by (unfold usable3; cbn; repeat split; lra).
  assert (Z : (v3z (c3_spacing c) : R) = 0) by reflexivity.
  split; [exact U|]. split; [exact Z|]. destruct (level_span blown_calls U Z) as (A & B & C & D & E & G). fold c in A, B, C, D, E, G.
  assert (W : length3 (v3x (c3_weight c)) (v3y (c3_weight c)) (v3z (c3_weight c)) = 5).
  { cbn. unfold length3. replace (0 * 0 + 3 * 3 + 4 * 4) with (5 * 5) by ring. apply sqrt_square. lra. }
  rewrite W in A, E. change (c3_tension_horizontal c) with (2000 : R) in A, E. change (v3x (c3_spacing c)) with (400 : R) in G.
  set (s := c3_Sag c) in *. set (k := c3_Constant c) in *. change (F RNum) with R in *. assert (k = 400) by lra. subst k. rewrite E. split; nra.
Qed.

(** C176 *)
Theorem stopwatch_sag : forall cks ks s wave, let c := c3_run (@Catenary3d_default RNum) cks in
  sw_run (@Stopwatch_new RNum) ks = Ok s -> sw_catenary s = c -> usable3 c -> (v3z (c3_spacing c) : R) = 0 -> sw_units s <> USNull ->
  (0 < wave < 2 ^ 30)%Z ->
  exists time g : R, omap fst (TimeReturn s wave) = Ok time /\
  g * (time / (2 * IZR wave) * (time / (2 * IZR wave))) = 8 * c3_Sag c * (1 + c3_Sag c / (2 * c3_Constant c)) /\
  (sw_units s = Imperial -> Rabs (g - 32174 / 1000) <= 1 / 1000) /\
  (sw_units s = Metric -> Rabs (g - 980665 / 100000) <= 1 / 10000).
Proof. exact stopwatch_sag_law. Qed.
Print Assumptions stopwatch_sag.

Example stopwatch_sag_case : exists s, sw_run (@Stopwatch_new RNum) [SwSetCatenary lv; SwSetUnits Metric; SwVelocityWave; SwSetUnits Imperial] = Ok s /\
  sw_catenary s = c3_run (@Catenary3d_default RNum) lv_calls /\ usable3 lv /\ (v3z (c3_spacing lv) : R) = 0 /\ sw_units s = Imperial.
Proof. eexists. split; [reflexivity|]. split; [reflexivity|]. split; [exact lv_usable|]. split; reflexivity. Qed.
