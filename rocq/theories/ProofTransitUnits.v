(** Transit sagging of similar spans, in exact arithmetic. *)
From Coq Require Import ZArith Bool List Reals Lra Lia.
From Verif Require Import Num NumFacts ModelBase ModelCatenary SpecCatenary SpecCatenary3 SpecScale3 SpecDatum SpecResize ModelSagging SpecSagging
  ProofReal ProofVector ProofCatenary ProofCatenary3 ProofScale3 PropScale3 ProofSagging ProofSaggers.
Import ListNotations.
Open Scope R_scope.

(** ** The search sees only the angles *)
Section Same.
Variables f g : RNum -> RNum.
Hypothesis E : forall x, f x = g x.
Lemma lowest_same : forall ps low found, lowest (N := RNum) f ps low found = lowest (N := RNum) g ps low found.
Proof. induction ps as [|p ps IH]; intros low found; cbn [lowest]; [reflexivity|]. rewrite E, !IH. reflexivity. Qed.
Lemma pass_same : forall s, search_pass (N := RNum) f s = search_pass (N := RNum) g s.
Proof. intros s. unfold search_pass, PositionCatenaryLowAngle. rewrite lowest_same. reflexivity. Qed.
Lemma search_same : forall n s, search (N := RNum) f n s = search (N := RNum) g n s.
Proof.
  induction n as [|n IH]; intros s; cbn [search]; [reflexivity|]. rewrite pass_same.
  destruct (_ <? _)%num; [|reflexivity]. destruct (search_pass g s) as [t| |]; cbn [obind]; [apply IH|reflexivity|reflexivity].
Qed.
End Same.

Lemma vertical_times : forall (k : R) a b, 0 < k -> AngleVertical (N := RNum) (times k a) (times k b) = AngleVertical (N := RNum) a b.
Proof.
  intros k a b Hk. unfold AngleVertical, times. cbn [p3x p3y p3z]. rewrite !mag_R. rn.
  assert (M : mag (mkVector2d (N := RNum) (k * p3x b - k * p3x a) (k * p3y b - k * p3y a)) =
              k * mag (mkVector2d (N := RNum) (p3x b - p3x a) (p3y b - p3y a))).
  { unfold mag. cbn [v2x v2y]. transitivity (sqrt (k * k) * sqrt ((p3x b - p3x a) * (p3x b - p3x a) + (p3y b - p3y a) * (p3y b - p3y a))).
    - rewrite <- sqrt_mult_alt by nra. f_equal. req. ring.
    - rewrite sqrt_square by lra. reflexivity. }
  rewrite M. replace (k * p3z b - k * p3z a) with (k * (p3z b - p3z a)) by ring. apply angle_multiple, Hk.
Qed.

Section Units.
Variables cks cks' : list (C3Call RNum).
Variables l m : R.
Let c := c3_run (@Catenary3d_default RNum) cks.
Let c' := c3_run (@Catenary3d_default RNum) cks'.
Hypothesis U : usable3 c.
Hypothesis Hl : 0 < l.
Hypothesis Hm : 0 < m.
Hypothesis S : similar3 l m c c'.
Variable p : Point3d RNum.
Let t := ts_fresh c p.
Let t' := ts_fresh c' (times l p).

Let num (x : @Answer RNum) : R := match x with ANum x => x | _ => 0 end.
Let point (x : @Answer RNum) : Point3d RNum := match x with APoint3 x => x | _ => Point3d_default end.
Lemma sim_coordinate : forall q, c3_Coordinate c' q = times l (c3_Coordinate c q).
Proof. intros q. exact (f_equal point (catenary3_similarity cks cks' l m U Hl Hm S (Q3Coordinate q) I)). Qed.
Lemma sim_sag : (c3_Sag c' : R) = l * c3_Sag c.
Proof. exact (f_equal num (catenary3_similarity cks cks' l m U Hl Hm S Q3Sag I)). Qed.
Lemma sim_sag_at : forall q, (c3_SagAt c' q : R) = l * c3_SagAt c q.
Proof. intros q. exact (f_equal num (catenary3_similarity cks cks' l m U Hl Hm S (Q3SagAt q) I)). Qed.

Lemma sight_units : forall q, sight t' q = sight t q.
Proof.
  intros q. unfold sight. change (ts_transit t') with (times l p). change (ts_catenary t') with c'.
  change (ts_transit t) with p. change (ts_catenary t) with c. rewrite sim_coordinate. apply vertical_times, Hl.
Qed.

(** The state after an update. *)
Definition after (x y : outcome (bool * Transit RNum)) : Prop :=
  match x, y with
  | Ok (a, s), Ok (b, s') => a = b /\ (a = true -> ts_angle s' = ts_angle s /\ ts_position s' = ts_position s /\ ts_low s' = times l (ts_low s) /\
      ts_transit s = p /\ ts_transit s' = times l p /\ ts_catenary s = c /\ ts_catenary s' = c')
  | Throw, Throw | UB, UB => True
  | _, _ => False
  end.
Lemma update_units : after (ts_Update t) (ts_Update t').
Proof.
  unfold ts_Update, UpdatePointCatenaryLow. rewrite (search_same _ _ sight_units).
  destruct (search (sight t) search_fuel Search_start) as [[r|]| |]; cbn [obind after]; try exact I.
  destruct ((se_position r =? #0)%num || (se_position r =? #1)%num); cbn [obind after]; [split; [reflexivity|intros B; discriminate B]|].
  change (ts_catenary t') with c'. change (ts_catenary t) with c. change (ts_transit t') with (times l p). change (ts_transit t) with p.
  rewrite sim_coordinate. unfold UpdateAngleLow. cbn [ts_transit ts_low]. rewrite vertical_times by exact Hl.
  split; [reflexivity|]. intros _. repeat split.
Qed.

Lemma transit_units_fresh :
  omap fst (AngleLow t') = omap fst (AngleLow t) /\ omap fst (FactorControl t') = omap fst (FactorControl t) /\
  (forall x y, omap fst (PointCatenaryLow t) = Ok x -> omap fst (PointCatenaryLow t') = Ok y -> grown l x y) /\
  (forall x y, omap fst (PointTarget t) = Ok x -> omap fst (PointTarget t') = Ok y -> grown l x y).
Proof.
  assert (A := update_units). unfold AngleLow, FactorControl, PointCatenaryLow, PointTarget, ts_ensure.
  change (ts_updated t') with false. change (ts_updated t) with false. cbn match.
  destruct (ts_Update t) as [[a s]| |], (ts_Update t') as [[b s']| |]; cbn [after] in A; try contradiction;
    cbn [obind omap]; try (repeat split; try reflexivity; intros x y B; discriminate B).
  destruct A as (<- & A). destruct a; [|cbn [fst]; split; [reflexivity|]; split; [reflexivity|]; split; intros x y B C; injection B as <-; injection C as <-; right; split; reflexivity].
  destruct (A eq_refl) as (A1 & A2 & A3 & A4 & A5 & A6 & A7). cbn [fst].
  split; [rewrite A1; reflexivity|]. split; [|split].
  - rewrite A2, A6, A7, sim_sag_at, sim_sag. f_equal. rn. unfold Rdiv. rewrite Rinv_mult.
    generalize (/ c3_Sag c). intros z. field. lra.
  - intros x y B C. injection B as <-. injection C as <-. left. exact A3.
  - intros x y B C. injection B as <-. injection C as <-. unfold target. rewrite A3, A4, A5, A6, A7.
    cbn [times p3x p3y p3z]. rn.
    assert (Y : Reqb (l * p3y p) 0 = Reqb (p3y p) 0) by (apply eq0_multiple, Hl).
    assert (W : Reqb (v3y (c3_weight c')) 0 = Reqb (v3y (c3_weight c)) 0).
    { destruct (sim3_weight _ _ _ _ S) as (_ & W & _). rewrite W. apply eq0_multiple. apply Rdiv_lt_0_compat; assumption. }
    rewrite Y, W. destruct (negb (Reqb (p3y p) 0)); [right; split; reflexivity|]. destruct (negb (Reqb (v3y (c3_weight c)) 0)); [right; split; reflexivity|].
    assert (X : forall a b : R, Rltb (l * a) (l * b) = Rltb a b).
    { intros a b. destruct (Rltb a b) eqn:L1; destruct (Rltb (l * a) (l * b)) eqn:L2; rbool; try reflexivity; exfalso; nra. }
    assert (X' : forall a b : R, Rleb (l * a) (l * b) = Rleb a b).
    { intros a b. destruct (Rleb a b) eqn:L1; destruct (Rleb (l * a) (l * b)) eqn:L2; rbool; try reflexivity; exfalso; nra. }
    rewrite X, X'. left. destruct (sim3_spacing _ _ _ _ S) as (SX & _). rewrite SX.
    assert (LY : forall a b d e x : R, LinearY (N := RNum) (l * a) (l * b) (l * d) (l * e) (l * x) = l * LinearY (N := RNum) a b d e x).
    { intros a b d e x. unfold LinearY. rn. replace (l * d - l * a) with (l * (d - a)) by ring. unfold Rdiv. rewrite Rinv_mult.
      replace (l * e - l * b) with (l * (e - b)) by ring. generalize (/ (d - a)). intros z. field. lra. }
    unfold times. cbn [p3x p3y p3z].
    destruct (Rltb (p3x p) (p3x (ts_low s))) eqn:L1.
    + rewrite LY. f_equal. req. ring.
    + destruct (Rleb (p3x (ts_low s)) (p3x p)) eqn:L2; [|rbool; lra].
      replace 0 with (l * 0) at 3 by ring. rewrite LY. f_equal; req; ring.
Qed.
End Units.
