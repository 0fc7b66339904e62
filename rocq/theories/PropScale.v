(** Catenaries of the same shape and mirrored catenaries (catenary.cc), for all
    objects that a history of calls can produce, in exact arithmetic. *)
From Coq Require Import ZArith Bool List Reals Lra.
From Verif Require Import Num NumFacts ModelBase ModelCatenary SpecCatenary SpecScale ProofReal ProofCatenary ProofScale.
Import ListNotations.
Open Scope R_scope.

Lemma run_good : forall ks, let c := c2_run (@Catenary2d_default RNum) ks in
  0 < c2_tension c -> 0 < c2_weight c -> 0 < v2x (c2_spacing c) -> good c.
Proof. intros ks c Hh Hw Ha. exact (conj (run_positive ks Hh) (conj Hh (conj Hw Ha))). Qed.

(** C169 *)
Theorem catenary_similarity : forall ks ks' (l m : R),
  let c := c2_run (@Catenary2d_default RNum) ks in let c' := c2_run (@Catenary2d_default RNum) ks' in
  0 < c2_tension c -> 0 < c2_weight c -> 0 < v2x (c2_spacing c) -> 0 < l -> 0 < m -> similar l m c c' ->
  forall q, asks_shape q -> c2_answer c' q = times (factor l m q) (c2_answer c q).
Proof.
  intros ks ks' l m c c' Hh Hw Ha Hl Hm S.
  assert (H' : 0 < c2_tension c') by (rewrite (sim_h _ _ _ _ S); apply Rmult_lt_0_compat; assumption).
  assert (W' : 0 < c2_weight c').
  { rewrite (sim_w _ _ _ _ S); apply Rmult_lt_0_compat; [apply Rdiv_lt_0_compat|]; assumption. }
  assert (A' : 0 < v2x (c2_spacing c')) by (rewrite (sim_x _ _ _ _ S); apply Rmult_lt_0_compat; assumption).
  exact (similar_answers c c' l m (run_good ks Hh Hw Ha) (run_good ks' H' W' A') Hl Hm S).
Qed.
Print Assumptions catenary_similarity.

(** A span of 300 with 18 of rise, and one three times as large under twice the forces. *)
Definition small_calls : list (C2Call RNum) :=
  [ C2SetSpacing (mkVector2d (N := RNum) (300 : R) (18 : R)); C2Query; C2SetWeight (N := RNum) (3 : R);
    C2SetTension (N := RNum) (2000 : R) ].
Definition large_calls : list (C2Call RNum) :=
  [ C2SetTension (N := RNum) (4000 : R); C2SetWeight (N := RNum) (2 : R); C2Query;
    C2SetSpacing (mkVector2d (N := RNum) (900 : R) (54 : R)) ].
Example catenary_similarity_case :
  let c := c2_run (@Catenary2d_default RNum) small_calls in let c' := c2_run (@Catenary2d_default RNum) large_calls in
  (c2_Sag c' : R) = 3 * c2_Sag c /\ (c2_TensionMax c' : R) = 2 * c2_TensionMax c /\
  (c2_PositionFractionOrigin c' : R) = c2_PositionFractionOrigin c.
Proof.
  intros c c'.
  assert (S : similar 3 2 c c').
  { split; cbn; change (F RNum) with R; lra. }
  assert (Hh : 0 < c2_tension c) by (cbn; lra).
  assert (Hw : 0 < c2_weight c) by (cbn; lra).
  assert (Ha : 0 < v2x (c2_spacing c)) by (cbn; lra).
  assert (P3 : 0 < 3) by lra. assert (P2 : 0 < 2) by lra.
  assert (T := catenary_similarity small_calls large_calls 3 2 Hh Hw Ha P3 P2 S).
  set (g := fun x : @Answer RNum => match x with ANum x => x : R | _ => 0 end).
  assert (T1 : (c2_Sag c' : R) = 3 * c2_Sag c) by exact (f_equal g (T Q2Sag I)).
  assert (T2 : (c2_TensionMax c' : R) = 2 * c2_TensionMax c) by exact (f_equal g (T Q2TensionMax I)).
  assert (T3 : (c2_PositionFractionOrigin c' : R) = 1 * c2_PositionFractionOrigin c) by exact (f_equal g (T Q2Origin I)).
  split; [exact T1|]. split; [exact T2|]. rewrite T3. apply Rmult_1_l.
Qed.

(** C170 *)
Theorem catenary_mirror : forall ks ks',
  let c := c2_run (@Catenary2d_default RNum) ks in let c' := c2_run (@Catenary2d_default RNum) ks' in
  0 < c2_tension c -> 0 < c2_weight c -> 0 < v2x (c2_spacing c) -> mirrored c c' ->
  (forall p : R, c2_Coordinate c' p false =
     mkPoint2d (N := RNum) (- p2x (c2_Coordinate c (1 - p : R) false)) (p2y (c2_Coordinate c (1 - p : R) false))) /\
  (forall p : R, c2_Coordinate c' p true =
     mkPoint2d (N := RNum) (v2x (c2_spacing c) - p2x (c2_Coordinate c (1 - p : R) true))
                           (p2y (c2_Coordinate c (1 - p : R) true) - v2y (c2_spacing c))) /\
  (forall p : R, (c2_SagAt c' p : R) = c2_SagAt c (1 - p : R)) /\
  (forall (p : R) d, (c2_TangentAngle c' p d : R) = - c2_TangentAngle c (1 - p : R) d) /\
  (forall x : R, (c2_PositionFraction c' (- x : R) : R) = 1 - c2_PositionFraction c x) /\
  (c2_PositionFractionOrigin c' : R) = 1 - c2_PositionFractionOrigin c /\
  (c2_PositionFractionSagPoint c' : R) = 1 - c2_PositionFractionSagPoint c /\
  (c2_Length c' : R) = c2_Length c /\ (c2_LengthSlack c' : R) = c2_LengthSlack c /\ (c2_Sag c' : R) = c2_Sag c.
Proof.
  intros ks ks' c c' Hh Hw Ha M.
  assert (H' : 0 < c2_tension c') by (rewrite (mir_h _ _ M); assumption).
  assert (W' : 0 < c2_weight c') by (rewrite (mir_w _ _ M); assumption).
  assert (A' : 0 < v2x (c2_spacing c')) by (rewrite (mir_x _ _ M); assumption).
  exact (mirror_answers c c' (run_good ks Hh Hw Ha) (run_good ks' H' W' A') M).
Qed.
Print Assumptions catenary_mirror.

Theorem catenary_mirror_forces : forall ks ks',
  let c := c2_run (@Catenary2d_default RNum) ks in let c' := c2_run (@Catenary2d_default RNum) ks' in
  0 < c2_tension c -> 0 < c2_weight c -> 0 < v2x (c2_spacing c) -> mirrored c c' ->
  (forall p : R, (c2_Tension c' p : R) = c2_Tension c (1 - p : R)) /\
  (forall (p : R) d, d <> ADNull -> c2_TensionVector c' p d =
     mkVector2d (N := RNum) (v2x (c2_TensionVector c (1 - p : R) d)) (- v2y (c2_TensionVector c (1 - p : R) d))) /\
  (forall n, (0 <= n)%Z -> (c2_TensionAverage c' n : R) = c2_TensionAverage c n) /\
  (c2_TensionMax c' : R) = c2_TensionMax c.
Proof.
  intros ks ks' c c' Hh Hw Ha M.
  assert (H' : 0 < c2_tension c') by (rewrite (mir_h _ _ M); assumption).
  assert (W' : 0 < c2_weight c') by (rewrite (mir_w _ _ M); assumption).
  assert (A' : 0 < v2x (c2_spacing c')) by (rewrite (mir_x _ _ M); assumption).
  exact (mirror_forces c c' (run_good ks Hh Hw Ha) (run_good ks' H' W' A') M).
Qed.
Print Assumptions catenary_mirror_forces.

(** The first span of the case above, falling instead of rising. *)
Definition falling_calls : list (C2Call RNum) :=
  [ C2SetTension (N := RNum) (2000 : R); C2SetSpacing (mkVector2d (N := RNum) (300 : R) (-18 : R)); C2Query;
    C2SetWeight (N := RNum) (3 : R) ].
Example catenary_mirror_case :
  let c := c2_run (@Catenary2d_default RNum) small_calls in let c' := c2_run (@Catenary2d_default RNum) falling_calls in
  (c2_Sag c' : R) = c2_Sag c /\ (c2_Tension c' (1 / 4 : R) : R) = c2_Tension c (1 - 1 / 4 : R) /\
  (c2_TensionMax c' : R) = c2_TensionMax c.
Proof.
  intros c c'.
  assert (M : mirrored c c').
  { split; cbn; change (F RNum) with R; lra. }
  assert (Hh : 0 < c2_tension c) by (cbn; lra).
  assert (Hw : 0 < c2_weight c) by (cbn; lra).
  assert (Ha : 0 < v2x (c2_spacing c)) by (cbn; lra).
  destruct (catenary_mirror small_calls falling_calls Hh Hw Ha M) as (_ & _ & _ & _ & _ & _ & _ & _ & _ & T1).
  destruct (catenary_mirror_forces small_calls falling_calls Hh Hw Ha M) as (T2 & _ & _ & T3).
  split; [exact T1|]. split; [apply T2|exact T3].
Qed.
