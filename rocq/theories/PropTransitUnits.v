(** Transit sagging in other units (transit_sagger.cc), in exact arithmetic. *)
From Coq Require Import ZArith Bool List Reals Lra Lia.
From Verif Require Import Num NumFacts ModelBase ModelCatenary SpecCatenary SpecCatenary3 SpecScale3 SpecDatum SpecResize ModelSagging SpecSagging
  ProofReal ProofCatenary ProofCatenary3 ProofSagging ProofSaggers ProofTransitCases ProofTransitUnits PropStopwatchUnits.
Import ListNotations.
Open Scope R_scope.

(** C180: the same span and transit with all lengths multiplied by [l] and all forces by [m],
    as in other units, have the same lowest sight angle and control factor, and the same low
    point and target in the other unit. *)
Theorem transit_unit_systems : forall cks cks' ks ks' s s' (l m : R),
  let c := c3_run (@Catenary3d_default RNum) cks in let c' := c3_run (@Catenary3d_default RNum) cks' in
  ts_run (@Transit_new RNum) ks = Ok s -> ts_catenary s = c ->
  ts_run (@Transit_new RNum) ks' = Ok s' -> ts_catenary s' = c' ->
  usable3 c -> 0 < l -> 0 < m -> similar3 l m c c' -> ts_transit s' = times l (ts_transit s) ->
  omap fst (AngleLow s') = omap fst (AngleLow s) /\ omap fst (FactorControl s') = omap fst (FactorControl s) /\
  (forall x y, omap fst (PointCatenaryLow s) = Ok x -> omap fst (PointCatenaryLow s') = Ok y -> grown l x y) /\
  (forall x y, omap fst (PointTarget s) = Ok x -> omap fst (PointTarget s') = Ok y -> grown l x y).
Proof.
  intros cks cks' ks ks' s s' l m c c' RUN EC RUN' EC' U Hl Hm S P.
  destruct (ts_alike_renew s (run_transit_current _ ks s RUN)) as (A1 & A2 & A3 & A4 & _).
  destruct (ts_alike_renew s' (run_transit_current _ ks' s' RUN')) as (B1 & B2 & B3 & B4 & _).
  unfold ts_renew in *. rewrite EC in A1, A2, A3, A4. rewrite EC', P in B1, B2, B3, B4.
  rewrite A1, A2, A3, A4, B1, B2, B3, B4. exact (transit_units_fresh cks cks' l m U Hl Hm S (ts_transit s)).
Qed.
Print Assumptions transit_unit_systems.

(** A level span with a transit behind it, in feet and in metres. *)
Definition foot_transit : Point3d RNum := mkPoint3d (N := RNum) (-100 : R) (0 : R) (-200 : R).
Definition metre_transit : Point3d RNum := mkPoint3d (N := RNum) (-3048 / 100 : R) (0 : R) (-6096 / 100 : R).
Example transit_unit_systems_case : exists s s',
  let c := c3_run (@Catenary3d_default RNum) lv_calls in let c' := c3_run (@Catenary3d_default RNum) metric_calls in
  ts_run (@Transit_new RNum) [TsSetTransit foot_transit; TsSetCatenary c] = Ok s /\ ts_catenary s = c /\
  ts_run (@Transit_new RNum) [TsSetCatenary c'; TsSetTransit metre_transit] = Ok s' /\ ts_catenary s' = c' /\
  usable3 c /\ similar3 (3048 / 10000) (4448 / 1000) c c' /\ ts_transit s' = times (3048 / 10000) (ts_transit s).
Proof.
  do 2 eexists. cbv zeta. split; [reflexivity|]. split; [reflexivity|]. split; [reflexivity|]. split; [reflexivity|].
  destruct stopwatch_unit_systems_case as (_ & _ & _ & _ & _ & _ & _ & _ & A & B). split; [exact A|]. split; [exact B|].
  cbn [ts_transit ts_set_transit ts_set_catenary]. unfold times, foot_transit, metre_transit. cbn [p3x p3y p3z]. f_equal; req; lra.
Qed.
