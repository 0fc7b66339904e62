(** Stopwatch sagging in both unit systems (stopwatch_sagger.cc), in exact arithmetic. *)
From Coq Require Import ZArith Bool List Reals Lra Lia.
From Verif Require Import Num NumFacts ModelBase ModelCatenary SpecCatenary SpecCatenary3 SpecScale3 ModelSagging SpecSagging
  ProofReal ProofCatenary ProofCatenary3 ProofScale3 PropScale3 ProofSaggers ProofTransitCases.
Import ListNotations.
Open Scope R_scope.

(** Positive numbers whose squares nearly agree. *)
Lemma near_root : forall x y p r e, 0 < x -> 0 < y -> 0 < p -> 0 <= e -> Rabs (r - p) <= e * p -> y * y * p = r * (x * x) ->
  Rabs (y - x) <= e * x.
Proof.
  intros x y p r e Hx Hy Hp He H E.
  assert (D : (y - x) * ((y + x) * p) = (r - p) * (x * x)) by (replace ((y - x) * ((y + x) * p)) with (y * y * p - p * (x * x)) by ring; rewrite E; ring).
  assert (A : Rabs (y - x) * ((y + x) * p) = Rabs (r - p) * (x * x)).
  { rewrite <- (Rabs_pos_eq ((y + x) * p)) by nra. rewrite <- (Rabs_pos_eq (x * x)) by nra. rewrite <- !Rabs_mult, D. reflexivity. }
  assert (P := Rabs_pos (y - x)). set (u := Rabs (y - x)) in *. clearbody u.
  assert (B : Rabs (r - p) * (x * x) <= e * p * (x * x)) by (apply Rmult_le_compat_r; [nra|exact H]).
  assert (C : u * (x * p) <= u * ((y + x) * p)) by (apply Rmult_le_compat_l; [exact P|]; apply Rmult_le_compat_r; lra).
  apply Rmult_le_reg_r with (x * p); [apply Rmult_lt_0_compat; assumption|]. replace (e * x * (x * p)) with (e * p * (x * x)) by ring. lra.
Qed.
Lemma length3_multiple : forall k v w, 0 < k -> multiple3 k v w ->
  length3 (v3x w) (v3y w) (v3z w) = k * length3 (v3x v) (v3y v) (v3z v).
Proof. intros k v w Hk M. rewrite <- !mag3_R. rewrite (multiple_mul _ _ _ M). apply mag3_multiple, Hk. Qed.

(** C179: the same span described in feet and pounds and in metres and any unit of force
    returns a wave at the same time, up to 1 part in 20000, and its waves have the same
    velocity. *)
Theorem stopwatch_unit_systems : forall cks cks' ks ks' s s' wave (m : R),
  let c := c3_run (@Catenary3d_default RNum) cks in let c' := c3_run (@Catenary3d_default RNum) cks' in
  sw_run (@Stopwatch_new RNum) ks = Ok s -> sw_catenary s = c -> sw_units s = Imperial ->
  sw_run (@Stopwatch_new RNum) ks' = Ok s' -> sw_catenary s' = c' -> sw_units s' = Metric ->
  usable3 c -> 0 < m -> similar3 (3048 / 10000) m c c' -> (0 < wave < 2 ^ 30)%Z ->
  exists time time' : R, omap fst (TimeReturn s wave) = Ok time /\ omap fst (TimeReturn s' wave) = Ok time' /\
    0 < time /\ Rabs (time' - time) <= 1 / 20000 * time /\
    Rabs (fst (VelocityWave s') - 3048 / 10000 * fst (VelocityWave s)) <= 1 / 20000 * (3048 / 10000 * fst (VelocityWave s)).
Proof.
  intros cks cks' ks ks' s s' wave m c c' RUN EC UN RUN' EC' UN' U Hm S W.
  assert (L0 : 0 < 3048 / 10000) by lra. assert (U' := similar3_usable _ m c c' L0 Hm U S).
  destruct (stopwatch_law cks ks s wave RUN EC U ltac:(rewrite UN; discriminate) ltac:(lia)) as (time & v & g & T1 & T2 & V & T3 & T4 & G & _). fold c in T3, T4.
  destruct (stopwatch_law cks' ks' s' wave RUN' EC' U' ltac:(rewrite UN'; discriminate) ltac:(lia)) as (time' & v' & g' & T1' & T2' & V' & T3' & T4' & _ & G').
  fold c' in T3', T4'. specialize (G UN). specialize (G' UN').
  assert (LEN : (c3_Length c' : R) = 3048 / 10000 * c3_Length c).
  { assert (Q := catenary3_similarity cks cks' _ m U L0 Hm S Q3Length I).
    exact (f_equal (fun x : @Answer RNum => match x with ANum x => x : R | _ => 0 end) Q). }
  assert (WM := length3_multiple _ _ _ (Rdiv_lt_0_compat _ _ Hm L0) (sim3_weight _ _ _ _ S)).
  assert (HH := sim3_tension _ _ _ _ S). rewrite LEN in T3'. rewrite WM, HH in T4'.
  assert (Q : 0 < length3 (v3x (c3_weight c)) (v3y (c3_weight c)) (v3z (c3_weight c))).
  { assert (X := W3_pos c U). rewrite <- (magw c U), mag3_R in X. exact X. }
  assert (HP : 0 < c3_tension_horizontal c). { destruct U as (_ & _ & _ & _ & _ & P). exact P. }
  assert (LP : 0 < c3_Length c). { destruct (length_facts _ (d_current c (run3_usable cks)) (d_h_pos c (run3_usable cks) U) (d_w_pos c (run3_usable cks) U) (d_a_pos c (run3_usable cks) U)) as (P & _). exact P. }
  assert (WP : 0 < IZR wave) by (apply IZR_lt; lia).
  exists time, time'. split; [exact T1|]. split; [exact T1'|]. rewrite T2, T2'.
  set (q := length3 _ _ _) in *. set (h := c3_tension_horizontal c) in *. set (l := c3_Length c) in *. set (n := IZR wave) in *.
  change (F RNum) with R in *. clearbody q h l n. clear - L0 Hm V V' T3 T3' T4 T4' G G' Q HP LP WP.
  assert (TP : time = 2 * n * l / v) by (apply Rmult_eq_reg_r with v; [rewrite T3; field; lra|lra]).
  assert (TP' : time' = 2 * n * (3048 / 10000 * l) / v') by (apply Rmult_eq_reg_r with v'; [rewrite T3'; field; lra|lra]).
  assert (T0 : 0 < time) by (rewrite TP; apply Rdiv_lt_0_compat; [repeat apply Rmult_lt_0_compat; lra|lra]).
  assert (T0' : 0 < time') by (rewrite TP'; apply Rdiv_lt_0_compat; [repeat apply Rmult_lt_0_compat; lra|lra]).
  apply Rabs_both in G, G'.
  assert (R1 : v' * v' * g = 3048 / 10000 * g' * (v * v)).
  { apply Rmult_eq_reg_r with (q * h * m); [|repeat apply Rmult_integral_contrapositive_currified; lra].
    transitivity (v' * v' * (m / (3048 / 10000) * q) * (3048 / 10000) * (g * h)); [field|]. rewrite T4', <- T4. ring. }
  split; [exact T0|].
  assert (VV : Rabs (v' - 3048 / 10000 * v) <= 1 / 20000 * (3048 / 10000 * v)).
  { apply (near_root _ _ (g * (3048 / 10000)) g'); try lra; apply Rabs_le; lra. }
  split; [|exact VV].
  apply (near_root _ _ g' (3048 / 10000 * g)); try lra; try (apply Rabs_le; lra).
  rewrite TP, TP'. apply Rmult_eq_reg_r with (v' * v' * (v * v)); [|apply Rgt_not_eq; repeat apply Rmult_lt_0_compat; lra].
  transitivity (2 * n * (3048 / 10000 * l) * (2 * n * (3048 / 10000 * l)) * (g' * (v * v))); [field; lra|].
  transitivity (3048 / 10000 * (2 * n * l * (2 * n * l)) * (v' * v' * g)); [rewrite R1; field|field; lra].
Qed.
Print Assumptions stopwatch_unit_systems.

(** A span of 1000 ft under 800 lb and 1 lb/ft, and the same span in metres, where the
    pound is taken as 4.448 units of force. *)
Definition metric_calls : list (C3Call RNum) :=
  [ C3SetTension (N := RNum) (800 * (4448 / 1000) : R); C3Query true; C3SetSpacing (mkVector3d (N := RNum) (3048 / 10 : R) (0 : R) (0 : R));
    C3SetWeight (mkVector3d (N := RNum) (0 : R) (0 : R) (4448 / 1000 / (3048 / 10000) : R)); C3SetDirection ADPositive ].
Example stopwatch_unit_systems_case : exists s s',
  let c := c3_run (@Catenary3d_default RNum) lv_calls in let c' := c3_run (@Catenary3d_default RNum) metric_calls in
  sw_run (@Stopwatch_new RNum) [SwSetUnits Metric; SwSetCatenary c; SwVelocityWave; SwSetUnits Imperial] = Ok s /\ sw_catenary s = c /\ sw_units s = Imperial /\
  sw_run (@Stopwatch_new RNum) [SwSetUnits Metric; SwSetCatenary c'] = Ok s' /\ sw_catenary s' = c' /\ sw_units s' = Metric /\
  usable3 c /\ similar3 (3048 / 10000) (4448 / 1000) c c'.
Proof.
  do 2 eexists. cbv zeta. split; [reflexivity|]. split; [reflexivity|]. split; [reflexivity|]. split; [reflexivity|]. split; [reflexivity|]. split; [reflexivity|].
  split; [exact lv_usable|]. destruct (inputs3 metric_calls (@Catenary3d_default RNum)) as (I1 & I2 & I3 & I4).
  split; rewrite ?I1, ?I2, ?I3, ?I4; [reflexivity| |cbn; change (F RNum) with R; lra|]; repeat split; cbn; change (F RNum) with R; lra.
Qed.
