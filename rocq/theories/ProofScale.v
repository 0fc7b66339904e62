(** Proofs on similar and mirrored catenaries. *)
From Coq Require Import ZArith Bool List Reals Lra Lia.
From Verif Require Import Num NumFacts ModelBase ModelCatenary SpecCatenary SpecScale ProofReal ProofVector HypFacts ProofCatenary.
Open Scope R_scope.

Definition good (c : Catenary2d RNum) : Prop :=
  c2_current c /\ 0 < c2_tension c /\ 0 < c2_weight c /\ 0 < v2x (c2_spacing c).

Lemma constant_R : forall c : Catenary2d RNum, (c2_Constant c : R) = ck c.
Proof. reflexivity. Qed.
Lemma length_R : forall c : Catenary2d RNum, good c -> (c2_Length c : R) = 2 * ck c * cosh (cu c) * sinh (cz c).
Proof. intros c (C & Hh & Hw & Ha). unfold c2_Length. rewrite (ens c C). apply E_length_2; assumption. Qed.
Lemma slack_R : forall c : Catenary2d RNum, good c -> (c2_LengthSlack c : R) =
  c2_Length c - sqrt (v2x (c2_spacing c) * v2x (c2_spacing c) + v2y (c2_spacing c) * v2y (c2_spacing c)).
Proof.
  intros c (C & Hh & Hw & Ha). unfold c2_LengthSlack, c2_Length. rewrite (ens c C), E_s, mag_R. reflexivity.
Qed.
Lemma null_tangent : forall (c : Catenary2d RNum) (p : R), c2_TangentVector c p ADNull = Vector2d_default.
Proof. reflexivity. Qed.

(** The sum of the tensions at the points, by a list of fractions. *)
Fixpoint tsum (T : R -> R) (n i : Z) (k : nat) : R :=
  match k with O => 0 | S k => T (IZR i / IZR n) + tsum T n (i + 1) k end.
Lemma tension_sum_R : forall c : Catenary2d RNum, good c -> forall n k i (s : R),
  (tension_sum (c2_ensure c) n i k s : R) = s + tsum (fun p => c2_Tension c (p : R)) n i k.
Proof.
  intros c (C & _) n. induction k as [|k IH]; intros i s.
  - cbn. symmetry. apply Rplus_0_r.
  - cbn [tension_sum tsum]. rewrite IH.
    assert (Q : forall p, c2_Tension (c2_ensure c) p = c2_Tension c p).
    { intros p. unfold c2_Tension. rewrite (ens c C). reflexivity. }
    rewrite Q. rn. apply Rplus_assoc.
Qed.
Lemma tsum_last : forall T n k i, tsum T n i (S k) = tsum T n i k + T (IZR (i + Z.of_nat k) / IZR n).
Proof.
  intros T n. induction k as [|k IH]; intros i.
  - cbn [tsum]. rewrite Nat2Z.inj_0, Z.add_0_r. ring.
  - change (tsum T n i (S (S k))) with (T (IZR i / IZR n) + tsum T n (i + 1) (S k)). rewrite IH.
    change (tsum T n i (S k)) with (T (IZR i / IZR n) + tsum T n (i + 1) k).
    replace (i + 1 + Z.of_nat k)%Z with (i + Z.of_nat (S k))%Z by lia. ring.
Qed.
Lemma tsum_rev : forall T T' n, (0 < n)%Z -> (forall p, T' p = T (1 - p)) -> forall k i j,
  (i + j + Z.of_nat k = n + 1)%Z -> tsum T' n i k = tsum T n j k.
Proof.
  intros T T' n Hn E. induction k as [|k IH]; intros i j H; [reflexivity|].
  rewrite tsum_last. cbn [tsum]. rewrite (IH i (j + 1)%Z) by lia. rewrite E, Rplus_comm. f_equal. f_equal.
  replace (i + Z.of_nat k)%Z with (n - j)%Z by lia. rewrite minus_IZR.
  assert (0 < IZR n) by (apply (IZR_lt 0); assumption). field. lra.
Qed.
Lemma tsum_scale : forall T T' n m, (forall p, T' p = m * T p) -> forall k i, tsum T' n i k = m * tsum T n i k.
Proof. intros T T' n m E. induction k as [|k IH]; intros i; cbn [tsum]; [ring|]. rewrite E, IH. ring. Qed.
Lemma average_sum : forall c : Catenary2d RNum, good c -> forall n, (0 < n)%Z ->
  (c2_TensionAverage c n : R) = tsum (fun p => c2_Tension c (p : R)) n 0 (Z.to_nat (n + 1)) / (IZR n + 1).
Proof.
  intros c G n Hn. unfold c2_TensionAverage.
  destruct (n =? 0)%Z eqn:Z0; [apply Z.eqb_eq in Z0; lia|]. destruct (0 <? n)%Z eqn:Z1; [|apply Z.ltb_ge in Z1; lia].
  rewrite tension_sum_R by assumption. rn. req. f_equal. apply Rplus_0_l.
Qed.

(** ** Similar catenaries *)
Section Similar.
Variables c c' : Catenary2d RNum.
Variables l m : R.
Hypothesis G : good c.
Hypothesis G' : good c'.
Hypothesis Hl : 0 < l.
Hypothesis Hm : 0 < m.
Hypothesis S : similar l m c c'.

Lemma s_ck : ck c' = l * ck c.
Proof.
  destruct G as (_ & Hh & Hw & _). unfold ck. rewrite (sim_h _ _ _ _ S), (sim_w _ _ _ _ S).
  change (F RNum) with R in *. field. lra.
Qed.
Lemma s_cz : cz c' = cz c.
Proof.
  assert (P := ck_pos c (proj1 (proj2 G)) (proj1 (proj2 (proj2 G)))).
  unfold cz. rewrite s_ck, (sim_x _ _ _ _ S). field. lra.
Qed.
Lemma s_slope : v2y (c2_spacing c') / v2x (c2_spacing c') = v2y (c2_spacing c) / v2x (c2_spacing c) :> R.
Proof. destruct G as (_ & _ & _ & Ha). rewrite (sim_x _ _ _ _ S), (sim_y _ _ _ _ S). rfield. change (F RNum) with R in *. lra. Qed.
Lemma s_cu : cu c' = cu c.
Proof.
  unfold cu. rewrite s_cz, (sim_x _ _ _ _ S), (sim_y _ _ _ _ S). f_equal.
  destruct G as (_ & Hh & Hw & Ha). assert (Q := sinh_pos _ (cz_pos c Hh Hw Ha)).
  change (F RNum) with R in *. field. lra.
Qed.
Lemma s_ct : forall p, ct c' p = ct c p.
Proof. intros p. unfold ct. rewrite s_cu, s_cz. reflexivity. Qed.

Lemma s_coordinate : forall (p : R) s,
  c2_Coordinate c' p s = mkPoint2d (N := RNum) (l * p2x (c2_Coordinate c p s)) (l * p2y (c2_Coordinate c p s)).
Proof.
  destruct G as (C & Hh & Hw & Ha), G' as (C' & Hh' & Hw' & Ha'). intros p [|].
  - rewrite !coordinate_shifted_R by assumption. rewrite s_ct, s_cu, s_cz, s_ck. cbn [p2x p2y]. f_equal; req; ring.
  - rewrite !coordinate_R by assumption. rewrite s_ct, s_ck. cbn [p2x p2y]. f_equal; req; ring.
Qed.
Lemma s_chord : forall (p : R) s,
  c2_CoordinateChord c' p s =
  mkPoint2d (N := RNum) (l * p2x (c2_CoordinateChord c p s)) (l * p2y (c2_CoordinateChord c p s)).
Proof.
  destruct G as (C & Hh & Hw & Ha), G' as (C' & Hh' & Hw' & Ha'). intros p [|].
  - rewrite !chord_shifted_R by assumption. rewrite s_ct, s_cu, s_cz, s_ck, s_slope. cbn [p2x p2y]. f_equal; req; ring.
  - rewrite !chord_R by assumption. rewrite s_ct, s_cu, s_cz, s_ck, s_slope. cbn [p2x p2y]. f_equal; req; ring.
Qed.
Lemma s_length : (c2_Length c' : R) = l * c2_Length c.
Proof. rewrite !length_R by assumption. rewrite s_ck, s_cu, s_cz. ring. Qed.
Lemma s_slack : (c2_LengthSlack c' : R) = l * c2_LengthSlack c.
Proof.
  rewrite !slack_R by assumption. rewrite s_length, (sim_x _ _ _ _ S), (sim_y _ _ _ _ S).
  rewrite Rmult_minus_distr_l. f_equal.
  transitivity (sqrt (l * l) * sqrt (v2x (c2_spacing c) * v2x (c2_spacing c) + v2y (c2_spacing c) * v2y (c2_spacing c))).
  - rewrite <- sqrt_mult_alt by nra. f_equal. req. ring.
  - rewrite sqrt_square by lra. reflexivity.
Qed.
Lemma s_fraction : forall x : R, (c2_PositionFraction c' x : R) = c2_PositionFraction c x.
Proof.
  destruct G as (C & Hh & Hw & Ha), G' as (C' & Hh' & Hw' & Ha'). intros x. rewrite !fraction_R by assumption.
  rewrite s_ck, s_cu, s_cz. assert (P := ck_pos c Hh Hw). assert (Q := sinh_ends c Hh Hw Ha). req. field. lra.
Qed.
Lemma same_ct : forall p q : R, ct c p = ct c q -> p = q.
Proof.
  destruct G as (C & Hh & Hw & Ha). intros p q H. destruct (Rtotal_order p q) as [L|[L|L]]; [|assumption|];
    exfalso; apply (ct_lt c Hh Hw Ha) in L; lra.
Qed.
Lemma s_origin : (c2_PositionFractionOrigin c' : R) = c2_PositionFractionOrigin c.
Proof.
  destruct G as (C & Hh & Hw & Ha), G' as (C' & Hh' & Hw' & Ha'). apply same_ct. rewrite <- s_ct, !origin_sinh by assumption.
  reflexivity.
Qed.
Lemma s_sagpoint : (c2_PositionFractionSagPoint c' : R) = c2_PositionFractionSagPoint c.
Proof.
  destruct G as (C & Hh & Hw & Ha), G' as (C' & Hh' & Hw' & Ha'). apply same_ct, sinh_inj.
  rewrite <- s_ct, !sagpoint_sinh by assumption. apply s_slope.
Qed.
Lemma s_sagat : forall p : R, (c2_SagAt c' p : R) = l * c2_SagAt c p.
Proof.
  destruct G as (C & Hh & Hw & Ha), G' as (C' & Hh' & Hw' & Ha'). intros p. rewrite !sagat_R by assumption.
  unfold sag_t. rewrite s_ct, s_cu, s_cz, s_ck, s_slope. req. ring.
Qed.
Lemma s_sag : (c2_Sag c' : R) = l * c2_Sag c.
Proof.
  destruct G as (C & _), G' as (C' & _). rewrite !sag_R by assumption. rewrite s_sagpoint. apply s_sagat.
Qed.
Lemma s_angle : forall (p : R) d, (c2_TangentAngle c' p d : R) = c2_TangentAngle c p d.
Proof.
  destruct G as (C & Hh & Hw & Ha), G' as (C' & Hh' & Hw' & Ha'). intros p d. rewrite !tangentangle_R by assumption.
  rewrite s_ct. reflexivity.
Qed.
Lemma s_tangent : forall (p : R) d, c2_TangentVector c' p d = c2_TangentVector c p d.
Proof.
  destruct G as (C & Hh & Hw & Ha), G' as (C' & Hh' & Hw' & Ha'). intros p d. destruct d; [reflexivity| |];
    rewrite !tangentvector_R by (assumption || discriminate); rewrite s_ct; reflexivity.
Qed.
Lemma s_tension : forall p : R, (c2_Tension c' p : R) = m * c2_Tension c p.
Proof.
  destruct G as (C & Hh & Hw & Ha), G' as (C' & Hh' & Hw' & Ha'). intros p. rewrite !tension_R by assumption.
  rewrite s_ct, (sim_h _ _ _ _ S). req. ring.
Qed.
Lemma tv_unfold : forall b, good b -> forall (p : R) d,
  c2_TensionVector b p d = Vector2d_Scale (c2_TangentVector b p d) (c2_Tension b p).
Proof.
  intros b (C & _) p d. unfold c2_TensionVector. rewrite (ens b C).
  unfold c2_TangentVector, c2_TangentAngle, c2_Tension. rewrite (ens b C). reflexivity.
Qed.
Lemma s_tensionvector : forall (p : R) d, c2_TensionVector c' p d =
  mkVector2d (N := RNum) (m * v2x (c2_TensionVector c p d)) (m * v2y (c2_TensionVector c p d)).
Proof.
  intros p d. rewrite !tv_unfold by assumption. rewrite s_tangent, s_tension. unfold Vector2d_Scale. cbn [v2x v2y].
  rn. f_equal; req; ring.
Qed.
Lemma s_max : (c2_TensionMax c' : R) = m * c2_TensionMax c.
Proof.
  destruct G as (C & _), G' as (C' & _). rewrite !tensionmax_R by assumption.
  rewrite (sim_y _ _ _ _ S).
  destruct (Rle_dec (l * v2y (c2_spacing c)) 0) as [A|A], (Rle_dec (v2y (c2_spacing c)) 0) as [B|B];
    try apply s_tension; exfalso; change (F RNum) with R in *; nra.
Qed.
Lemma s_average : forall n, (0 <= n)%Z -> (c2_TensionAverage c' n : R) = m * c2_TensionAverage c n.
Proof.
  intros n Hn. destruct (Z.eq_dec n 0) as [->|Z0].
  - assert (L := s_length). assert (LP : 0 < c2_Length c).
    { rewrite length_R by assumption. destruct G as (C & Hh & Hw & Ha).
      assert (P := ck_pos c Hh Hw). assert (Q := sinh_pos _ (cz_pos c Hh Hw Ha)). assert (O := cosh_pos (cu c)).
      apply Rmult_lt_0_compat; [|assumption]. apply Rmult_lt_0_compat; [|assumption]. lra. }
    destruct G as (C & Hh & Hw & Ha), G' as (C' & Hh' & Hw' & Ha').
    rewrite !average_R by assumption. rewrite L, s_cu, s_cz, (sim_h _ _ _ _ S), (sim_w _ _ _ _ S).
    change (F RNum) with R in *. req. field. repeat split; lra.
  - rewrite !average_sum by (assumption || lia).
    rewrite (tsum_scale (fun p => c2_Tension c (p : R)) _ n m s_tension).
    unfold Rdiv. ring.
Qed.

Lemma similar_answers : forall q, asks_shape q -> c2_answer c' q = times (factor l m q) (c2_answer c q).
Proof.
  intros q Hq. destruct q; cbn [c2_answer factor times]; cbn [asks_shape] in Hq; try contradiction; f_equal.
  - exact s_ck.
  - apply s_coordinate.
  - apply s_chord.
  - apply s_length.
  - apply s_slack.
  - rewrite s_fraction. symmetry. apply Rmult_1_l.
  - rewrite s_origin. symmetry. apply Rmult_1_l.
  - rewrite s_sagpoint. symmetry. apply Rmult_1_l.
  - apply s_sag.
  - apply s_sagat.
  - rewrite s_angle. symmetry. apply Rmult_1_l.
  - rewrite s_tangent. rewrite !Rmult_1_l. destruct c2_TangentVector; reflexivity.
  - apply s_tension.
  - apply s_tensionvector.
  - apply s_average, Hq.
  - apply s_max.
  - rewrite <- (sim_x _ _ _ _ S), <- (sim_y _ _ _ _ S). destruct (c2_spacing c'); reflexivity.
  - apply (sim_h _ _ _ _ S).
  - apply (sim_w _ _ _ _ S).
Qed.
End Similar.

(** ** Mirrored catenaries *)
Lemma one_twice : forall x : R, 1 - (1 - x) = x.
Proof. intros x. ring. Qed.
Section Mirrored.
Variables c c' : Catenary2d RNum.
Hypothesis G : good c.
Hypothesis G' : good c'.
Hypothesis M : mirrored c c'.

Lemma m_ck : ck c' = ck c.
Proof. unfold ck. rewrite (mir_h _ _ M), (mir_w _ _ M). reflexivity. Qed.
Lemma m_cz : cz c' = cz c.
Proof. unfold cz. rewrite m_ck, (mir_x _ _ M). reflexivity. Qed.
Lemma m_slope : v2y (c2_spacing c') / v2x (c2_spacing c') = - (v2y (c2_spacing c) / v2x (c2_spacing c)) :> R.
Proof. destruct G as (_ & _ & _ & Ha). rewrite (mir_x _ _ M), (mir_y _ _ M). rfield. change (F RNum) with R in *. lra. Qed.
Lemma m_cu : cu c' = - cu c.
Proof.
  destruct G as (C & Hh & Hw & Ha), G' as (C' & Hh' & Hw' & Ha').
  apply sinh_inj. rewrite sinh_neg, !sinh_cu by assumption. rewrite m_ck, m_cz, (mir_y _ _ M).
  unfold Rdiv. apply Ropp_mult_distr_l_reverse.
Qed.
Lemma m_ct : forall p, ct c' p = - ct c (1 - p).
Proof.
  intros p. apply sinh_inj. rewrite sinh_neg, !sinh_ct, m_cu, m_cz.
  replace (- cu c + cz c) with (- (cu c - cz c)) by ring.
  replace (- cu c - cz c) with (- (cu c + cz c)) by ring. rewrite !sinh_neg. ring.
Qed.
Lemma m_coordinate : forall p : R, c2_Coordinate c' p false =
  mkPoint2d (N := RNum) (- p2x (c2_Coordinate c (1 - p : R) false)) (p2y (c2_Coordinate c (1 - p : R) false)).
Proof.
  destruct G as (C & Hh & Hw & Ha), G' as (C' & Hh' & Hw' & Ha'). intros p. rewrite !coordinate_R by assumption.
  cbn [p2x p2y]. rewrite m_ct, m_ck, cosh_neg. f_equal; req; ring.
Qed.
Lemma m_ends : ck c * cosh (cu c - cz c) + v2y (c2_spacing c) = ck c * cosh (cu c + cz c).
Proof.
  destruct G as (C & Hh & Hw & Ha).
  assert (B := b_kz c Hh Hw Ha). rewrite B at 1. rewrite cosh_plus, cosh_minus. req. ring.
Qed.
Lemma m_coordinate_shifted : forall p : R, c2_Coordinate c' p true =
  mkPoint2d (N := RNum) (v2x (c2_spacing c) - p2x (c2_Coordinate c (1 - p : R) true))
                        (p2y (c2_Coordinate c (1 - p : R) true) - v2y (c2_spacing c)).
Proof.
  assert (E := m_ends).
  destruct G as (C & Hh & Hw & Ha), G' as (C' & Hh' & Hw' & Ha'). intros p. rewrite !coordinate_shifted_R by assumption.
  cbn [p2x p2y]. rewrite m_ct, m_ck, m_cu, m_cz, cosh_neg.
  replace (- cu c - cz c) with (- (cu c + cz c)) by ring. rewrite cosh_neg.
  assert (A := a_kz c Hh Hw). f_equal; req.
  - rewrite A at 1. req. ring.
  - change (F RNum) with R in *. lra.
Qed.
Lemma m_sagat : forall p : R, (c2_SagAt c' p : R) = c2_SagAt c (1 - p : R).
Proof.
  assert (E := m_ends).
  destruct G as (C & Hh & Hw & Ha), G' as (C' & Hh' & Hw' & Ha'). intros p. rewrite !sagat_R by assumption.
  unfold sag_t. rewrite m_ct, m_ck, m_cu, m_cz, m_slope, cosh_neg.
  replace (- cu c - cz c) with (- (cu c + cz c)) by ring. rewrite cosh_neg.
  rewrite (slope_ends c Hh Hw Ha). assert (Q := cz_pos c Hh Hw Ha). req. field. lra.
Qed.
Lemma m_fraction : forall x : R, (c2_PositionFraction c' (- x : R) : R) = 1 - c2_PositionFraction c x.
Proof.
  destruct G as (C & Hh & Hw & Ha), G' as (C' & Hh' & Hw' & Ha'). intros x.
  apply (same_ct c' G'). apply sinh_inj. rewrite (fraction_sinh c' C' Hh' Hw' Ha'), m_ct.
  rewrite one_twice.
  rewrite sinh_neg, (fraction_sinh c C Hh Hw Ha), !deg2rad_R, Ropp_mult_distr_l_reverse. apply tan_neg.
Qed.
Lemma m_origin : (c2_PositionFractionOrigin c' : R) = 1 - c2_PositionFractionOrigin c.
Proof.
  destruct G as (C & Hh & Hw & Ha), G' as (C' & Hh' & Hw' & Ha').
  apply (same_ct c' G'). rewrite origin_sinh by assumption. rewrite m_ct.
  rewrite one_twice.
  rewrite origin_sinh by assumption. lra.
Qed.
Lemma m_sagpoint : (c2_PositionFractionSagPoint c' : R) = 1 - c2_PositionFractionSagPoint c.
Proof.
  destruct G as (C & Hh & Hw & Ha), G' as (C' & Hh' & Hw' & Ha').
  apply (same_ct c' G'), sinh_inj. rewrite sagpoint_sinh by assumption. rewrite m_ct.
  rewrite one_twice.
  rewrite sinh_neg, sagpoint_sinh by assumption. apply m_slope.
Qed.
Lemma m_sag : (c2_Sag c' : R) = c2_Sag c.
Proof.
  destruct G as (C & _), G' as (C' & _). rewrite !sag_R by assumption. rewrite m_sagat, m_sagpoint.
  f_equal. req. ring.
Qed.
Lemma m_length : (c2_Length c' : R) = c2_Length c.
Proof. rewrite !length_R by assumption. rewrite m_ck, m_cu, m_cz, cosh_neg. reflexivity. Qed.
Lemma m_slack : (c2_LengthSlack c' : R) = c2_LengthSlack c.
Proof.
  rewrite !slack_R by assumption. rewrite m_length, (mir_x _ _ M), (mir_y _ _ M). f_equal. f_equal. req. ring.
Qed.
Lemma m_angle : forall (p : R) d, (c2_TangentAngle c' p d : R) = - c2_TangentAngle c (1 - p : R) d.
Proof.
  destruct G as (C & Hh & Hw & Ha), G' as (C' & Hh' & Hw' & Ha'). intros p d. rewrite !tangentangle_R by assumption.
  rewrite m_ct, sinh_neg, atan_opp, !rad2deg_R. destruct d; req; ring.
Qed.
Lemma m_tension : forall p : R, (c2_Tension c' p : R) = c2_Tension c (1 - p : R).
Proof.
  destruct G as (C & Hh & Hw & Ha), G' as (C' & Hh' & Hw' & Ha'). intros p. rewrite !tension_R by assumption.
  rewrite m_ct, cosh_neg, (mir_h _ _ M). reflexivity.
Qed.
Lemma m_tensionvector : forall (p : R) d, d <> ADNull -> c2_TensionVector c' p d =
  mkVector2d (N := RNum) (v2x (c2_TensionVector c (1 - p : R) d)) (- v2y (c2_TensionVector c (1 - p : R) d)).
Proof.
  destruct G as (C & Hh & Hw & Ha), G' as (C' & Hh' & Hw' & Ha'). intros p d Hd.
  rewrite !tensionvector_R by assumption. rewrite m_ct, sinh_neg, m_ck, (mir_h _ _ M), (mir_w _ _ M).
  destruct d; [contradiction| |]; cbn [v2x v2y]; f_equal; req; ring.
Qed.
Lemma m_max : (c2_TensionMax c' : R) = c2_TensionMax c.
Proof.
  assert (E := m_ends).
  destruct G as (C & Hh & Hw & Ha), G' as (C' & Hh' & Hw' & Ha'). rewrite !tensionmax_R by assumption.
  rewrite !m_tension, (mir_y _ _ M). rewrite Rminus_0_r, Rminus_eq_0.
  destruct (Rle_dec (- v2y (c2_spacing c)) 0) as [A|A], (Rle_dec (v2y (c2_spacing c)) 0) as [B|B]; try reflexivity;
    change (F RNum) with R in *; [|exfalso; lra].
  assert (Z : v2y (c2_spacing c) = 0 :> R) by (change (F RNum) with R; lra). rewrite !tension_R by assumption.
  rewrite ct_0, ct_1. assert (P := ck_pos c Hh Hw). f_equal.
  apply Rmult_eq_reg_l with (ck c); [|lra]. rewrite <- E. change (F RNum) with R in *. lra.
Qed.
Lemma m_average : forall n, (0 <= n)%Z -> (c2_TensionAverage c' n : R) = c2_TensionAverage c n.
Proof.
  intros n Hn. destruct (Z.eq_dec n 0) as [->|Z0].
  - assert (L := m_length). destruct G as (C & Hh & Hw & Ha), G' as (C' & Hh' & Hw' & Ha').
    rewrite !average_R by assumption. rewrite L, m_cu, m_cz, (mir_h _ _ M), (mir_w _ _ M).
    replace (- cu c + cz c) with (- (cu c - cz c)) by ring.
    replace (- cu c - cz c) with (- (cu c + cz c)) by ring. rewrite !sinh_neg, !cosh_neg. f_equal. req. ring.
  - rewrite !average_sum by (assumption || lia). f_equal.
    apply tsum_rev; [lia|exact m_tension|]. rewrite Z2Nat.id; lia.
Qed.

Lemma mirror_answers :
  (forall p : R, c2_Coordinate c' p false =
     mkPoint2d (N := RNum) (- p2x (c2_Coordinate c (1 - p : R) false)) (p2y (c2_Coordinate c (1 - p : R) false))) /\
  (forall p : R, c2_Coordinate c' p true =
     mkPoint2d (N := RNum) (v2x (c2_spacing c) - p2x (c2_Coordinate c (1 - p : R) true))
                           (p2y (c2_Coordinate c (1 - p : R) true) - v2y (c2_spacing c))) /\
  (forall p : R, (c2_SagAt c' p : R) = c2_SagAt c (1 - p : R)) /\
  (forall (p : R) d, (c2_TangentAngle c' p d : R) = - c2_TangentAngle c (1 - p : R) d) /\
  (forall x : R, (c2_PositionFraction c' (- x : R) : R) = 1 - c2_PositionFraction c x) /\
  (c2_PositionFractionOrigin c' : R) = 1 - c2_PositionFractionOrigin c /\
  (c2_PositionFractionSagPoint c' : R) = 1 - c2_PositionFractionSagPoint c /\
  (c2_Length c' : R) = c2_Length c /\ (c2_LengthSlack c' : R) = c2_LengthSlack c /\ (c2_Sag c' : R) = c2_Sag c.
Proof.
  repeat split; [apply m_coordinate|apply m_coordinate_shifted|apply m_sagat|apply m_angle|apply m_fraction
    |apply m_origin|apply m_sagpoint|apply m_length|apply m_slack|apply m_sag].
Qed.
Lemma mirror_forces :
  (forall p : R, (c2_Tension c' p : R) = c2_Tension c (1 - p : R)) /\
  (forall (p : R) d, d <> ADNull -> c2_TensionVector c' p d =
     mkVector2d (N := RNum) (v2x (c2_TensionVector c (1 - p : R) d)) (- v2y (c2_TensionVector c (1 - p : R) d))) /\
  (forall n, (0 <= n)%Z -> (c2_TensionAverage c' n : R) = c2_TensionAverage c n) /\
  (c2_TensionMax c' : R) = c2_TensionMax c.
Proof. repeat split; [apply m_tension|apply m_tensionvector|apply m_average|apply m_max]. Qed.
End Mirrored.
