(** Proofs about Catenary2d in exact real arithmetic, and about the cached members
    of both catenaries in any arithmetic. *)
From Coq Require Import ZArith Bool List Lia Reals Lra Psatz.
From Verif Require Import Num NumFacts ModelBase ModelCatenary SpecCatenary ProofReal ProofVector HypFacts.
Import ListNotations.

(** ** The cache, in any arithmetic *)
Section Cache.
Context {N : Num}.

(** The members are those of a refresh. *)
Definition c2_current (c : Catenary2d N) : Prop := c2_is_updated c = true -> c2_Update c = c.

Lemma Update_idem : forall c : Catenary2d N, c2_Update (c2_Update c) = c2_Update c.
Proof. intros c. reflexivity. Qed.

Lemma Update_inputs : forall c c' : Catenary2d N, c2_spacing c = c2_spacing c' -> c2_tension c = c2_tension c' ->
  c2_weight c = c2_weight c' -> c2_Update c = c2_Update c'.
Proof.
  intros c c' S H W. unfold c2_Update, c2_UpdateLengths, c2_UpdateEndPoints. cbn. rewrite S, H, W. reflexivity.
Qed.

Lemma ensure_current : forall c : Catenary2d N, c2_current c -> c2_ensure c = c2_Update c.
Proof. intros c I. unfold c2_ensure. destruct (c2_is_updated c) eqn:U; [symmetry; apply I; assumption|reflexivity]. Qed.

Lemma call_current : forall (c : Catenary2d N) k, c2_current c -> c2_current (c2_call c k).
Proof.
  intros c k I. destruct k; cbn [c2_call]; try (intros U; discriminate U); [|assumption].
  rewrite ensure_current by assumption. intros _. apply Update_idem.
Qed.

Lemma setter_current : forall (c : Catenary2d N) k, is_setter2 k = true -> c2_current (c2_call c k).
Proof. intros c k H. destruct k; try discriminate H; intros U; discriminate U. Qed.

Lemma run_current : forall ks (c : Catenary2d N), c2_current c -> c2_current (c2_run c ks).
Proof.
  induction ks as [|k ks IH]; intros c I; [assumption|]. cbn. apply IH, call_current, I.
Qed.

Lemma run_setter : forall ks (c : Catenary2d N), existsb is_setter2 ks = true -> c2_current (c2_run c ks).
Proof.
  induction ks as [|k ks IH]; intros c H; [discriminate H|]. cbn in *.
  destruct (is_setter2 k) eqn:E.
  - apply run_current, setter_current, E.
  - apply IH. exact H.
Qed.

Lemma run_no_setter : forall ks : list (C2Call N), existsb is_setter2 ks = false ->
  c2_run Catenary2d_default ks = Catenary2d_default.
Proof.
  induction ks as [|k ks IH]; intros H; [reflexivity|]. cbn in *. apply orb_false_elim in H. destruct H as [A B].
  destruct k; try discriminate A; cbn; apply IH, B.
Qed.

Lemma run_ensure : forall ks, existsb is_setter2 ks = true ->
  let c := c2_run (@Catenary2d_default N) ks in
  c2_ensure c = c2_ensure (c2_fresh (c2_spacing c) (c2_tension c) (c2_weight c)).
Proof.
  intros ks H c. assert (I : c2_current c) by (apply run_setter; assumption).
  rewrite (ensure_current c I). unfold c2_ensure, c2_fresh. cbn [c2_is_updated c2_set_weight].
  apply Update_inputs; reflexivity.
Qed.

Lemma answer_ensure : forall (c c' : Catenary2d N) q, c2_ensure c = c2_ensure c' ->
  c2_spacing c = c2_spacing c' -> c2_tension c = c2_tension c' -> c2_weight c = c2_weight c' ->
  c2_answer c q = c2_answer c' q.
Proof.
  intros c c' q E S H W. destruct q; cbn [c2_answer];
  unfold c2_Constant, c2_Coordinate, c2_CoordinateChord, c2_Length, c2_LengthSlack, c2_PositionFraction,
    c2_PositionFractionOrigin, c2_PositionFractionSagPoint, c2_Sag, c2_SagAt, c2_TangentAngle, c2_TangentVector,
    c2_Tension, c2_TensionVector, c2_TensionAverage, c2_TensionMax, c2_Validate, c2_ValidateCurveAndSpacing,
    c2_Constant, c2_CoordinateChord, c2_Coordinate; rewrite ?E, ?S, ?H, ?W; reflexivity.
Qed.

Lemma history2 : forall ks q, existsb is_setter2 ks = true ->
  let c := c2_run (@Catenary2d_default N) ks in
  c2_answer c q = c2_answer (c2_fresh (c2_spacing c) (c2_tension c) (c2_weight c)) q.
Proof. intros ks q H c. apply answer_ensure; try reflexivity. apply run_ensure, H. Qed.

Lemma inputs2 : forall ks (c : Catenary2d N),
  c2_spacing (c2_run c ks) = last_of pick_spacing ks (c2_spacing c) /\
  c2_tension (c2_run c ks) = last_of pick_tension ks (c2_tension c) /\
  c2_weight (c2_run c ks) = last_of pick_weight ks (c2_weight c).
Proof.
  induction ks as [|k ks IH]; intros c; [auto|].
  cbn [c2_run fold_left last_of]. fold (c2_run (c2_call c k) ks).
  destruct (IH (c2_call c k)) as (-> & -> & ->).
  destruct k; cbn; auto. unfold c2_ensure. destruct (c2_is_updated c); auto.
Qed.
End Cache.

(** ** Catenary2d over the reals *)
Open Scope R_scope.

Lemma angle_atan : forall x y : R, 0 < x ->
  @deg2rad RNum (Vector2d_Angle (mkVector2d (N := RNum) x y) true) = atan (y / x).
Proof.
  intros a b Ha. assert (NZ : a <> 0 \/ b <> 0) by (left; lra).
  assert (NZ' : nz (mkVector2d (N := RNum) a b)) by exact NZ.
  assert (AC := arad_cases a b NZ). unfold arad in AC.
  set (v := mkVector2d (N := RNum) a b) in *.
  assert (Rg := Angle_negative_range v NZ').
  assert (AB := atan_bound (b / a)). assert (PK := PI_K). assert (KP := K_pos).
  assert (SG : b < 0 -> atan (b / a) < 0).
  { intros Hy. rewrite <- atan_0. apply atan_increasing. apply Rmult_lt_reg_r with a; [assumption|].
    unfold Rdiv. rewrite Rmult_assoc, Rinv_l; lra. }
  destruct (Rlt_dec 0 a); [|lra].
  destruct (Angle_negative v) as [Q|[Q B]].
  - rewrite Q in *. rewrite AC. clear Q.
    destruct (Rlt_dec 0 b); [reflexivity|]. destruct (Rlt_dec b 0) as [l|l].
    + exfalso. rewrite deg2rad_R in AC. rewrite Rabs_left in AC by (apply SG, l).
      generalize dependent (Vector2d_Angle v false : R). intros V AC B.
      assert (V * (K / 180) <= 180 * (K / 180)) by (apply Rmult_le_compat_r; lra). unfold K in *. lra.
    + replace b with 0 by lra. unfold Rdiv. rewrite Rmult_0_l, atan_0. reflexivity.
  - rewrite Q. rewrite deg2rad_R in *. clear Q Rg.
    generalize dependent (Vector2d_Angle v false : R). intros V AC B.
    assert (180 * (K / 180) < V * (K / 180)) by (apply Rmult_lt_compat_r; lra).
    replace ((V - 360) * (K / 180)) with (V * (K / 180) - 2 * K) by field. rewrite AC in *.
    destruct (Rlt_dec 0 b); [unfold K in *; lra|]. destruct (Rlt_dec b 0) as [l|l]; [|unfold K in *; lra].
    rewrite Rabs_left by (apply SG, l). req. ring.
Qed.

Section Real2.
Variable c : Catenary2d RNum.
Hypothesis cur : c2_current c.
Let h : R := c2_tension c.
Let w : R := c2_weight c.
Let a : R := v2x (c2_spacing c).
Let b : R := v2y (c2_spacing c).
Hypothesis Hh : 0 < h.
Hypothesis Hw : 0 < w.
Hypothesis Ha : 0 < a.

Definition ck : R := h / w.
Definition cz : R := a / 2 / ck.
Definition cu : R := arcsinh (b * cz / (a * sinh cz)).
Definition ct (p : R) : R := arcsinh (p * sinh (cu + cz) + (1 - p) * sinh (cu - cz)).
Let E : Catenary2d RNum := c2_Update c.

Lemma ck_pos : 0 < ck.
Proof using Hh Hw. apply Rdiv_lt_0_compat; assumption. Qed.
Lemma cz_pos : 0 < cz.
Proof using Ha Hh Hw. unfold cz. apply Rdiv_lt_0_compat; [lra|apply ck_pos]. Qed.
Lemma a_kz : a = 2 * ck * cz.
Proof using Hh Hw. unfold cz. assert (P := ck_pos). field. lra. Qed.
Lemma sinh_cu : sinh cu = b / (2 * ck * sinh cz).
Proof using Ha Hh Hw.
  unfold cu. rewrite sinh_arcsinh. assert (P := ck_pos). assert (Q := cz_pos). assert (S := sinh_pos _ Q).
  assert (A := a_kz). rewrite A at 1. field. repeat split; lra.
Qed.
Lemma b_kz : b = 2 * ck * sinh cu * sinh cz.
Proof using Ha Hh Hw.
  rewrite sinh_cu. assert (P := ck_pos). assert (Q := cz_pos). assert (S := sinh_pos _ Q). field. split; lra.
Qed.

Lemma ens : c2_ensure c = E.
Proof using cur. apply ensure_current, cur. Qed.
Lemma ensE : c2_ensure E = E. Proof. reflexivity. Qed.
Lemma E_h : c2_tension E = h. Proof. reflexivity. Qed.
Lemma E_w : c2_weight E = w. Proof. reflexivity. Qed.
Lemma E_s : c2_spacing E = c2_spacing c. Proof. reflexivity. Qed.

Lemma E_left_x : p2x (c2_left E) = ck * (cu - cz).
Proof.
  unfold E, c2_Update, c2_UpdateLengths, c2_UpdateEndPoints. cbn [c2_left p2x].
  fold h w a b. rn. reflexivity.
Qed.
Lemma E_right_x : p2x (c2_right E) = ck * (cu + cz).
Proof.
  unfold E, c2_Update, c2_UpdateLengths, c2_UpdateEndPoints. cbn [c2_right p2x].
  fold h w a b. rn. reflexivity.
Qed.

Lemma coord_y : forall t : R, @coordinate_y RNum h w (ck * t) = ck * (cosh t - 1).
Proof using Hh Hw.
  intros t. unfold coordinate_y. rn. fold ck. replace (ck * t / ck) with t; [reflexivity|].
  field. assert (P := ck_pos). lra.
Qed.
Lemma from_origin : forall t : R, @length_from_origin RNum h w (ck * t) = ck * sinh t.
Proof using Hh Hw.
  intros t. unfold length_from_origin. rn. fold ck. replace (ck * t / ck) with t; [reflexivity|].
  field. assert (P := ck_pos). lra.
Qed.

Lemma E_left_y : p2y (c2_left E) = ck * (cosh (cu - cz) - 1).
Proof using Hh Hw.
  rewrite <- coord_y, <- E_left_x. reflexivity.
Qed.
Lemma E_length_left : c2_length_left E = ck * sinh (cu - cz).
Proof using Hh Hw. rewrite <- from_origin, <- E_left_x. reflexivity. Qed.
Lemma E_length : c2_length E = ck * (sinh (cu + cz) - sinh (cu - cz)).
Proof using Hh Hw.
  transitivity (@length_from_origin RNum h w (p2x (c2_right E)) - @length_from_origin RNum h w (p2x (c2_left E)));
    [reflexivity|]. rewrite E_right_x, E_left_x, !from_origin. req. ring.
Qed.
Lemma E_length_2 : c2_length E = 2 * ck * cosh cu * sinh cz.
Proof using Hh Hw. rewrite E_length, sinh_plus, sinh_minus. req. ring. Qed.
Lemma sinh_ends : sinh (cu - cz) < sinh (cu + cz).
Proof using Ha Hh Hw. apply sinh_lt. assert (Q := cz_pos). lra. Qed.
Lemma E_length_pos : 0 < c2_length E.
Proof using Ha Hh Hw.
  rewrite E_length. apply Rmult_lt_0_compat; [apply ck_pos|]. assert (S := sinh_ends). lra.
Qed.

Lemma sinh_ct : forall p, sinh (ct p) = p * sinh (cu + cz) + (1 - p) * sinh (cu - cz).
Proof. intros p. apply sinh_arcsinh. Qed.
Lemma ct_0 : ct 0 = cu - cz.
Proof. unfold ct. rewrite Rmult_0_l, Rminus_0_r, Rmult_1_l, Rplus_0_l. apply arcsinh_sinh. Qed.
Lemma ct_1 : ct 1 = cu + cz.
Proof. unfold ct. rewrite Rminus_eq_0, Rmult_0_l, Rmult_1_l, Rplus_0_r. apply arcsinh_sinh. Qed.
Lemma ct_lt : forall p q, p < q -> ct p < ct q.
Proof using Ha Hh Hw. intros p q H. apply sinh_lt_inv. rewrite !sinh_ct. assert (S := sinh_ends). nra. Qed.
Lemma ct_le : forall p q, p <= q -> ct p <= ct q.
Proof using Ha Hh Hw. intros p q [H| ->]; [left; apply ct_lt; assumption|right; reflexivity]. Qed.
Lemma ct_arc : forall p, ck * sinh (ct p) = p * c2_length E + c2_length_left E.
Proof using Hh Hw. intros p. rewrite E_length, E_length_left, sinh_ct. ring. Qed.

Lemma E_x : forall p : R, @c2_CoordinateX RNum E p = ck * ct p.
Proof using Hh Hw.
  intros p. unfold c2_CoordinateX. rewrite E_h, E_w. rn. fold ck. f_equal. unfold ct. f_equal.
  rewrite <- (sinh_ct p). rewrite <- ct_arc. field. assert (P := ck_pos). lra.
Qed.
Lemma over_k : forall t : R, ck * t / ck = t.
Proof using Hh Hw. intros t. field. assert (P := ck_pos). lra. Qed.

Lemma coordinate_R : forall p : R, c2_Coordinate c p false =
  mkPoint2d (N := RNum) (ck * ct p) (ck * (cosh (ct p) - 1)).
Proof using Hh Hw cur.
  intros p. unfold c2_Coordinate. rewrite ens, E_x. unfold c2_CoordinateY. rewrite E_h, E_w, coord_y. reflexivity.
Qed.
Lemma coordinate_shifted_R : forall p : R, c2_Coordinate c p true =
  mkPoint2d (N := RNum) (ck * ct p - ck * (cu - cz)) (ck * (cosh (ct p) - 1) - ck * (cosh (cu - cz) - 1)).
Proof using Hh Hw cur.
  intros p. unfold c2_Coordinate. rewrite ens, E_x. unfold c2_CoordinateY.
  rewrite E_h, E_w, coord_y, E_left_y, E_left_x. reflexivity.
Qed.

(** C23 *)
Lemma end_points : c2_Coordinate c (0 : R) true = mkPoint2d (N := RNum) (0 : R) (0 : R) /\
  c2_Coordinate c (1 : R) true = mkPoint2d (N := RNum) a b.
Proof using Ha Hh Hw cur.
  rewrite !coordinate_shifted_R, ct_0, ct_1, a_kz, b_kz, cosh_plus, cosh_minus. split; f_equal; ring.
Qed.

(** C24 *)
Lemma curve_deriv : forall x, derivable_pt_lim (catenary_curve ck) x (sinh (x / ck)).
Proof using Hh Hw.
  intros x. unfold catenary_curve.
  replace (sinh (x / ck)) with (ck * (sinh (x / ck) * (1 * / ck) - 0)) by (field; assert (P := ck_pos); lra).
  apply derivable_pt_lim_scal with (f := fun x => cosh (x / ck) - 1).
  apply derivable_pt_lim_minus with (f1 := fun x => cosh (x / ck)) (f2 := fun _ => 1);
    [|apply derivable_pt_lim_const].
  apply derivable_pt_lim_comp with (f1 := fun x => x / ck) (f2 := cosh); [|apply derivable_pt_lim_cosh].
  replace (1 * / ck) with (1 * / ck + x * 0) by ring.
  apply derivable_pt_lim_mult with (f1 := id) (f2 := fun _ => / ck);
    [apply derivable_pt_lim_id|apply derivable_pt_lim_const].
Qed.
Lemma arc_deriv : forall x, derivable_pt_lim (fun x => ck * sinh (x / ck)) x (cosh (x / ck)).
Proof using Hh Hw.
  intros x.
  replace (cosh (x / ck)) with (ck * (cosh (x / ck) * (1 * / ck))) by (field; assert (P := ck_pos); lra).
  apply derivable_pt_lim_scal with (f := fun x => sinh (x / ck)).
  apply derivable_pt_lim_comp with (f1 := fun x => x / ck) (f2 := sinh); [|apply derivable_pt_lim_sinh].
  replace (1 * / ck) with (1 * / ck + x * 0) by ring.
  apply derivable_pt_lim_mult with (f1 := id) (f2 := fun _ => / ck);
    [apply derivable_pt_lim_id|apply derivable_pt_lim_const].
Qed.
Lemma arc_k : forall t1 t2, arc_length (catenary_curve ck) (ck * t1) (ck * t2) (ck * sinh t2 - ck * sinh t1).
Proof using Hh Hw.
  intros t1 t2. exists (fun x => sinh (x / ck)), (fun x => ck * sinh (x / ck)).
  split; [apply curve_deriv|]. split.
  - intros x. rewrite <- cosh_sqrt. apply arc_deriv.
  - rewrite !over_k. reflexivity.
Qed.

Lemma on_curve : forall p : R, p2y (c2_Coordinate c p false) = catenary_curve ck (p2x (c2_Coordinate c p false)).
Proof using Hh Hw cur. intros p. rewrite coordinate_R. cbn [p2x p2y]. unfold catenary_curve. rewrite over_k. reflexivity. Qed.
Lemma arc_fraction : forall p : R,
  arc_length (catenary_curve ck) (p2x (c2_Coordinate c (0 : R) false)) (p2x (c2_Coordinate c p false)) (p * c2_Length c).
Proof using Hh Hw cur.
  intros p. rewrite !coordinate_R, ct_0. cbn [p2x]. unfold c2_Length. rewrite ens, E_length.
  replace (p * (ck * (sinh (cu + cz) - sinh (cu - cz)))) with (ck * sinh (ct p) - ck * sinh (cu - cz)).
  - apply arc_k.
  - rewrite sinh_ct. ring.
Qed.
Lemma x_increasing : forall p q : R, p < q -> p2x (c2_Coordinate c p false) < p2x (c2_Coordinate c q false).
Proof using Ha Hh Hw cur.
  intros p q H. rewrite !coordinate_R. cbn [p2x]. apply Rmult_lt_compat_l; [apply ck_pos|apply ct_lt, H].
Qed.

(** C25 *)
Lemma length_identity : c2_Length c * c2_Length c = b * b + (2 * ck * sinh (a / (2 * ck))) * (2 * ck * sinh (a / (2 * ck))).
Proof using Ha Hh Hw cur.
  unfold c2_Length. rewrite ens, E_length_2.
  replace (a / (2 * ck)) with cz by (unfold cz; field; assert (P := ck_pos); lra).
  rewrite b_kz. generalize (cosh_sinh_sq cu). intros Q.
  replace (cosh cu) with (cosh cu) by reflexivity.
  transitivity ((4 * ck * ck * sinh cz * sinh cz) * (cosh cu * cosh cu)); [ring|].
  replace (cosh cu * cosh cu) with (1 + sinh cu * sinh cu) by lra. ring.
Qed.
Lemma slack_pos : 0 < c2_LengthSlack c.
Proof using Ha Hh Hw cur.
  unfold c2_LengthSlack. rewrite ens, E_s, mag_R. rn. apply Rlt_Rminus.
  assert (L := length_identity). unfold c2_Length in L. rewrite ens in L.
  assert (P := E_length_pos). assert (M := mag_sq (c2_spacing c)). assert (N0 := mag_nonneg (c2_spacing c)).
  fold a b in M.
  assert (S : a < 2 * ck * sinh (a / (2 * ck))).
  { assert (Pk := ck_pos). assert (Q := sinh_gt (a / (2 * ck))).
    assert (0 < a / (2 * ck)) by (apply Rdiv_lt_0_compat; lra).
    specialize (Q H). apply (Rmult_lt_compat_l (2 * ck)) in Q; [|lra].
    replace (2 * ck * (a / (2 * ck))) with a in Q by (field; lra). exact Q. }
  set (S0 := 2 * ck * sinh (a / (2 * ck))) in *.
  set (m := mag (c2_spacing c)) in *. generalize dependent m. intros m M N0.
  generalize dependent (c2_length E : R). intros l L P. change (l * l = b * b + S0 * S0) in L. nra.
Qed.

(** C26 *)
Lemma tension_R : forall p : R, c2_Tension c p = h * cosh (ct p).
Proof using Hh Hw cur.
  intros p. unfold c2_Tension. rewrite ens, E_x, E_h, E_w. rn. fold ck. rewrite over_k. reflexivity.
Qed.
Lemma low_arc : forall p : R,
  arc_length (catenary_curve ck) 0 (p2x (c2_Coordinate c p false)) (ck * sinh (ct p)).
Proof using Hh Hw cur.
  intros p. rewrite coordinate_R. cbn [p2x]. assert (A := arc_k 0 (ct p)).
  rewrite sinh_0, Rmult_0_r, Rminus_0_r in A. exact A.
Qed.
Lemma h_kw : h = ck * w. Proof using Hw. unfold ck. field. lra. Qed.
Lemma tension_sqrt : forall p : R, c2_Tension c p = sqrt (h * h + (w * (ck * sinh (ct p))) * (w * (ck * sinh (ct p)))).
Proof using Hh Hw cur.
  intros p. rewrite tension_R.
  replace (w * (ck * sinh (ct p))) with (h * sinh (ct p)) by (rewrite h_kw; ring).
  replace (h * h + h * sinh (ct p) * (h * sinh (ct p))) with ((h * cosh (ct p)) * (h * cosh (ct p))).
  - rewrite sqrt_square; [reflexivity|]. assert (P := cosh_pos (ct p)). nra.
  - assert (Q := cosh_sinh_sq (ct p)). nra.
Qed.
Lemma tension_ge : forall p : R, h <= c2_Tension c p.
Proof using Hh Hw cur. intros p. rewrite tension_R. assert (P := cosh_ge_1 (ct p)). nra. Qed.
Lemma tension_eq_low : forall p : R, (c2_Tension c p : R) = h <-> p2x (c2_Coordinate c p false) = 0.
Proof using Hh Hw cur.
  intros p. rewrite tension_R, coordinate_R. cbn [p2x]. assert (Pk := ck_pos). split; intros H.
  - assert (H0 : ct p = 0); [|rewrite H0; req; ring]. apply cosh_eq_1.
    apply Rmult_eq_reg_l with h; lra.
  - apply Rmult_integral in H. destruct H as [H|H]; [lra|]. rewrite H, cosh_0. ring.
Qed.
Lemma Rleb_dec : forall x y, Rleb x y = if Rle_dec x y then true else false.
Proof.
  intros x y. destruct (Rle_dec x y) as [l|l].
  - destruct (Rleb x y) eqn:B; [reflexivity|]. rbool. lra.
  - destruct (Rleb x y) eqn:B; [|reflexivity]. rbool. lra.
Qed.
Lemma tensionmax_R : c2_TensionMax c = if Rle_dec b 0 then c2_Tension c (0 : R) else c2_Tension c (1 : R).
Proof using cur.
  unfold c2_TensionMax. rewrite ens, E_s. rn. fold b. rewrite Rleb_dec.
  assert (Q : forall p, c2_Tension E p = c2_Tension c p).
  { intros p. unfold c2_Tension. rewrite ens, ensE. reflexivity. }
  destruct Rle_dec; apply Q.
Qed.
(** cosh along the span is below the larger end value *)
Lemma cosh_between : forall x y t, x <= t <= y -> cosh t <= Rmax (cosh x) (cosh y).
Proof.
  intros x y t H. destruct (Rle_dec 0 t) as [P|P].
  - apply Rle_trans with (cosh y); [|apply Rmax_r]. apply cosh_le_of_sinh.
    assert (S0 := sinh_le 0 t P). assert (S1 := sinh_le t y (proj2 H)). rewrite sinh_0 in S0. rewrite !Rabs_pos_eq; lra.
  - apply Rle_trans with (cosh x); [|apply Rmax_l]. apply cosh_le_of_sinh.
    assert (S0 : sinh t <= 0) by (rewrite <- sinh_0; apply sinh_le; lra). assert (S1 := sinh_le x t (proj1 H)).
    rewrite !Rabs_left1; lra.
Qed.
Lemma cosh_ends : cosh (cu + cz) - cosh (cu - cz) = b / ck.
Proof using Ha Hh Hw.
  rewrite cosh_plus, cosh_minus, b_kz. field. assert (P := ck_pos). lra.
Qed.
Lemma tensionmax_max : forall p : R, 0 <= p <= 1 -> c2_Tension c p <= c2_TensionMax c.
Proof using Ha Hh Hw cur.
  intros p H. rewrite tensionmax_R.
  assert (B : cosh (ct p) <= Rmax (cosh (cu - cz)) (cosh (cu + cz))).
  { apply cosh_between. rewrite <- ct_0, <- ct_1. split; apply ct_le; lra. }
  assert (D := cosh_ends). assert (Pk := ck_pos).
  destruct Rle_dec as [l|l]; rewrite !tension_R, ?ct_0, ?ct_1; (apply Rmult_le_compat_l; [lra|]).
  - rewrite Rmax_left in B; [assumption|].
    assert (b / ck <= 0); [|lra]. apply Rmult_le_reg_r with ck; [assumption|]. unfold Rdiv. rewrite Rmult_assoc, Rinv_l; lra.
  - rewrite Rmax_right in B; [assumption|].
    assert (0 < b / ck); [|lra]. apply Rdiv_lt_0_compat; lra.
Qed.
Lemma tensionmax_end : c2_TensionMax c = c2_Tension c (0 : R) \/ c2_TensionMax c = c2_Tension c (1 : R).
Proof using cur. rewrite tensionmax_R. destruct Rle_dec; auto. Qed.

(** C27 *)
Lemma tangentangle_R : forall (p : R) d, c2_TangentAngle c p d =
  match d with ADNegative => - (@rad2deg RNum (atan (sinh (ct p)))) | _ => @rad2deg RNum (atan (sinh (ct p))) end.
Proof using Hh Hw cur.
  intros p d. unfold c2_TangentAngle. rewrite ens, E_x, E_h, E_w. rn. fold ck. rewrite over_k.
  destruct d; try reflexivity. req. ring.
Qed.
Lemma tangentvector_R : forall (p : R) d, d <> ADNull -> c2_TangentVector c p d =
  match d with ADNegative => mkVector2d (N := RNum) (- / cosh (ct p)) (- (sinh (ct p) / cosh (ct p)))
  | _ => mkVector2d (N := RNum) (/ cosh (ct p)) (sinh (ct p) / cosh (ct p)) end.
Proof using Hh Hw cur.
  intros p d Hd. unfold c2_TangentVector.
  assert (Q : c2_TangentAngle (c2_ensure c) p d = c2_TangentAngle c p d).
  { unfold c2_TangentAngle. rewrite ens, ensE. reflexivity. }
  rewrite Q, tangentangle_R. destruct d; [contradiction| |]; rn.
  2:{ rewrite deg_rad, cos_atan_sinh, sin_atan_sinh. reflexivity. }
  - assert (G : @deg2rad RNum (- @rad2deg RNum (atan (sinh (ct p)))) = - atan (sinh (ct p))).
    { rewrite <- (deg_rad (atan (sinh (ct p)))) at 2. rewrite !deg2rad_R. req. ring. }
    rewrite G, cos_neg, sin_neg, cos_atan_sinh, sin_atan_sinh. f_equal; req; field; assert (P := cosh_pos (ct p)); lra.
Qed.
Lemma tensionvector_R : forall (p : R) d, d <> ADNull -> c2_TensionVector c p d =
  match d with ADNegative => mkVector2d (N := RNum) (- h) (- (w * (ck * sinh (ct p))))
  | _ => mkVector2d (N := RNum) h (w * (ck * sinh (ct p))) end.
Proof using Hh Hw cur.
  intros p d Hd. unfold c2_TensionVector.
  assert (Q : c2_TangentVector (c2_ensure c) p d = c2_TangentVector c p d).
  { unfold c2_TangentVector, c2_TangentAngle. rewrite ens, ensE. reflexivity. }
  assert (Q2 : c2_Tension (c2_ensure c) p = c2_Tension c p).
  { unfold c2_Tension. rewrite ens, ensE. reflexivity. }
  rewrite Q, Q2, tangentvector_R, tension_R by assumption. assert (P := cosh_pos (ct p)).
  assert (HK := h_kw).
  destruct d; [contradiction| |]; unfold Vector2d_Scale; cbn [v2x v2y]; rn; f_equal; req;
    try (rewrite HK); field; lra.
Qed.

(** C28 *)
Lemma fraction_R : forall (x : R), @c2_PositionFraction RNum c x =
  (ck * tan (@deg2rad RNum x) - ck * sinh (cu - cz)) / (ck * (sinh (cu + cz) - sinh (cu - cz))).
Proof using Hh Hw cur.
  intros x. unfold c2_PositionFraction, c2_ConvertToPositionFraction. rewrite ens, E_h, E_w. rn. fold ck.
  rewrite from_origin, sinh_arcsinh, E_length_left, E_length. reflexivity.
Qed.
Lemma fraction_sinh : forall (x : R), sinh (ct (@c2_PositionFraction RNum c x)) = tan (@deg2rad RNum x).
Proof using Ha Hh Hw cur.
  intros x. rewrite sinh_ct, fraction_R. assert (P := ck_pos). assert (S := sinh_ends). field. split; lra.
Qed.
Lemma fraction_of_angle : forall p : R, (c2_PositionFraction c (c2_TangentAngle c p ADPositive) : R) = p.
Proof using Ha Hh Hw cur.
  intros p. rewrite tangentangle_R, fraction_R, deg_rad, tan_atan, sinh_ct.
  assert (P := ck_pos). assert (S := sinh_ends). req. field. split; lra.
Qed.
Lemma angle_of_fraction : forall x : R, -90 < x < 90 ->
  (c2_TangentAngle c (c2_PositionFraction c x) ADPositive : R) = x.
Proof using Ha Hh Hw cur.
  intros x H. rewrite tangentangle_R, fraction_sinh, rad2deg_R. assert (PK := PI_K). assert (KP := K_pos).
  rewrite atan_tan.
  - rewrite deg2rad_R. req. field. lra.
  - rewrite deg2rad_R. split; nra.
Qed.
Lemma angle_negative : forall p : R, (c2_TangentAngle c p ADNegative : R) = - c2_TangentAngle c p ADPositive.
Proof using Hh Hw cur. intros p. rewrite !tangentangle_R. reflexivity. Qed.
Lemma origin_sinh : ct (c2_PositionFractionOrigin c) = 0.
Proof using Ha Hh Hw cur.
  apply sinh_inj. rewrite sinh_0. unfold c2_PositionFractionOrigin.
  transitivity (tan (@deg2rad RNum (0 : R))).
  - rewrite <- fraction_sinh. f_equal. f_equal. unfold c2_PositionFraction. rewrite ens, ensE. rn. reflexivity.
  - rewrite deg2rad_R, Rmult_0_l. apply tan_0.
Qed.
Lemma origin_flat : (c2_TangentAngle c (c2_PositionFractionOrigin c) ADPositive : R) = 0 /\
  c2_Coordinate c (c2_PositionFractionOrigin c) false = mkPoint2d (N := RNum) (0 : R) (0 : R).
Proof using Ha Hh Hw cur.
  split.
  - rewrite tangentangle_R, origin_sinh, sinh_0, atan_0, rad2deg_R. req. ring.
  - rewrite coordinate_R, origin_sinh, cosh_0. f_equal; ring.
Qed.

(** C29 *)
Lemma slope_ends : b / a = (cosh (cu + cz) - cosh (cu - cz)) / (2 * cz).
Proof using Ha Hh Hw.
  rewrite cosh_ends. rewrite a_kz at 1. assert (P := ck_pos). assert (Q := cz_pos). field. split; lra.
Qed.
Definition sag_t (t : R) : R := ck * (cosh (cu - cz) + (t - (cu - cz)) * (b / a) - cosh t).
Lemma chord_R : forall p : R, c2_CoordinateChord c p false =
  mkPoint2d (N := RNum) (ck * ct p) (ck * (cosh (cu - cz) - 1) + (ck * ct p - ck * (cu - cz)) * (b / a)).
Proof using Hh Hw cur.
  intros p. unfold c2_CoordinateChord.
  assert (Q : c2_Coordinate (c2_ensure c) p false = c2_Coordinate c p false).
  { unfold c2_Coordinate. rewrite ens, ensE. reflexivity. }
  rewrite Q, coordinate_R, ens, E_left_x, E_left_y, E_s. cbn [p2x p2y]. rn. fold a b. reflexivity.
Qed.
Lemma chord_shifted_R : forall p : R, c2_CoordinateChord c p true =
  mkPoint2d (N := RNum) (ck * ct p - ck * (cu - cz)) ((ck * ct p - ck * (cu - cz)) * (b / a)).
Proof using Hh Hw cur.
  intros p. unfold c2_CoordinateChord.
  assert (Q : c2_Coordinate (c2_ensure c) p false = c2_Coordinate c p false).
  { unfold c2_Coordinate. rewrite ens, ensE. reflexivity. }
  rewrite Q, coordinate_R, ens, E_left_x, E_left_y, E_s. cbn [p2x p2y]. rn. fold a b. f_equal. req. ring.
Qed.
Lemma sagat_R : forall p : R, (c2_SagAt c p : R) = sag_t (ct p).
Proof using Hh Hw cur.
  intros p. unfold c2_SagAt. rewrite chord_R, coordinate_R. cbn [p2y]. rn. unfold sag_t. req. ring.
Qed.
Lemma sag_t_nonneg : forall t, cu - cz <= t <= cu + cz -> 0 <= sag_t t.
Proof using Ha Hh Hw.
  intros t H. unfold sag_t. apply Rmult_le_pos; [left; apply ck_pos|]. rewrite slope_ends.
  assert (Q := cz_pos). assert (C := cosh_chord (cu - cz) (cu + cz) t H).
  apply Rmult_le_reg_l with (2 * cz); [lra|]. rewrite Rmult_0_r.
  replace (2 * cz * (cosh (cu - cz) + (t - (cu - cz)) * ((cosh (cu + cz) - cosh (cu - cz)) / (2 * cz)) - cosh t))
    with (2 * cz * cosh (cu - cz) + (t - (cu - cz)) * (cosh (cu + cz) - cosh (cu - cz)) - 2 * cz * cosh t)
    by (field; lra).
  nra.
Qed.
Lemma sag_t_left : sag_t (cu - cz) = 0.
Proof. unfold sag_t. ring. Qed.
Lemma sag_t_right : sag_t (cu + cz) = 0.
Proof using Ha Hh Hw.
  unfold sag_t. rewrite slope_ends. assert (Q := cz_pos). field. lra.
Qed.
Lemma sag_range : forall p : R, 0 <= p <= 1 -> 0 <= c2_SagAt c p.
Proof using Ha Hh Hw cur.
  intros p H. rewrite sagat_R. apply sag_t_nonneg. rewrite <- ct_0, <- ct_1. split; apply ct_le; lra.
Qed.
Lemma sag_ends : (c2_SagAt c (0 : R) : R) = 0 /\ (c2_SagAt c (1 : R) : R) = 0.
Proof using Ha Hh Hw cur. rewrite !sagat_R, ct_0, ct_1. split; [apply sag_t_left|apply sag_t_right]. Qed.

Lemma angle_spacing : @deg2rad RNum (Vector2d_Angle (c2_spacing c) true) = atan (b / a).
Proof using Ha.
  assert (Q := angle_atan a b Ha). unfold a, b in *. destruct (c2_spacing c). exact Q.
Qed.
Lemma sagpoint_sinh : sinh (ct (c2_PositionFractionSagPoint c)) = b / a.
Proof using Ha Hh Hw cur.
  unfold c2_PositionFractionSagPoint.
  transitivity (tan (@deg2rad RNum (Vector2d_Angle (c2_spacing c) true))).
  - rewrite <- fraction_sinh. f_equal. f_equal. unfold c2_PositionFraction. rewrite ens, ensE, E_s. reflexivity.
  - rewrite angle_spacing. apply tan_atan.
Qed.
Lemma sag_t_max : forall t s, sinh t = b / a -> sag_t s <= sag_t t.
Proof using Hh Hw.
  intros t s H. unfold sag_t. apply Rmult_le_compat_l; [left; apply ck_pos|].
  assert (T := cosh_tangent t s). rewrite H in T. nra.
Qed.
Lemma sag_R : (c2_Sag c : R) = c2_SagAt c (c2_PositionFractionSagPoint c).
Proof using cur.
  unfold c2_Sag.
  assert (Q : c2_PositionFractionSagPoint (c2_ensure c) = c2_PositionFractionSagPoint c).
  { unfold c2_PositionFractionSagPoint. rewrite ens, ensE. reflexivity. }
  rewrite Q. unfold c2_SagAt, c2_CoordinateChord, c2_Coordinate. rewrite ens, ensE. reflexivity.
Qed.
Lemma sag_max : forall p : R, c2_SagAt c p <= c2_Sag c.
Proof using Ha Hh Hw cur.
  intros p. rewrite sag_R, !sagat_R. apply sag_t_max. apply sagpoint_sinh.
Qed.
Lemma sagpoint_range : 0 <= c2_PositionFractionSagPoint c <= 1.
Proof using Ha Hh Hw cur.
  assert (SP := sagpoint_sinh). rewrite sinh_ct, slope_ends in SP.
  assert (T1 := cosh_tangent (cu - cz) (cu + cz)). assert (T2 := cosh_tangent (cu + cz) (cu - cz)).
  assert (Q := cz_pos). assert (S := sinh_ends).
  set (q := (c2_PositionFractionSagPoint c : R)) in *.
  assert (D : (q * sinh (cu + cz) + (1 - q) * sinh (cu - cz)) * (2 * cz) = cosh (cu + cz) - cosh (cu - cz)).
  { rewrite SP. field. lra. }
  replace (cu + cz - (cu - cz)) with (2 * cz) in T1 by ring.
  replace (cu - cz - (cu + cz)) with (- (2 * cz)) in T2 by ring.
  set (s1 := sinh (cu + cz)) in *. set (s0 := sinh (cu - cz)) in *.
  split.
  - apply Rmult_le_reg_l with ((s1 - s0) * (2 * cz)); [apply Rmult_lt_0_compat; lra|]. nra.
  - apply Rmult_le_reg_l with ((s1 - s0) * (2 * cz)); [apply Rmult_lt_0_compat; lra|]. nra.
Qed.
Lemma sag_pos : forall p : R, 0 < p < 1 -> 0 < c2_SagAt c p.
Proof using Ha Hh Hw cur.
  intros p H. rewrite sagat_R.
  assert (B : cu - cz < ct p < cu + cz) by (rewrite <- ct_0, <- ct_1; split; apply ct_lt; lra).
  set (t := ct p) in *. unfold sag_t. apply Rmult_lt_0_compat; [apply ck_pos|]. rewrite slope_ends.
  assert (Q := cz_pos).
  assert (T1 := cosh_tangent_lt t (cu - cz)). assert (T2 := cosh_tangent_lt t (cu + cz)).
  assert (N1 : t <> cu - cz) by lra. assert (N2 : t <> cu + cz) by lra. specialize (T1 N1). specialize (T2 N2).
  apply Rmult_lt_reg_l with (2 * cz); [lra|]. rewrite Rmult_0_r.
  replace (2 * cz * (cosh (cu - cz) + (t - (cu - cz)) * ((cosh (cu + cz) - cosh (cu - cz)) / (2 * cz)) - cosh t))
    with (2 * cz * cosh (cu - cz) + (t - (cu - cz)) * (cosh (cu + cz) - cosh (cu - cz)) - 2 * cz * cosh t)
    by (field; lra).
  set (c1 := cosh (cu - cz)) in *. set (c2 := cosh (cu + cz)) in *.
  assert (A1 : (cu + cz - t) * (cosh t + (cu - cz - t) * sinh t) < (cu + cz - t) * c1) by (apply Rmult_lt_compat_l; lra).
  assert (A2 : (t - (cu - cz)) * (cosh t + (cu + cz - t) * sinh t) < (t - (cu - cz)) * c2) by (apply Rmult_lt_compat_l; lra).
  nra.
Qed.

(** C66 *)
Lemma average_deriv : forall x, derivable_pt_lim (fun x => h / 2 * (x + ck * (sinh (x / ck) * cosh (x / ck)))) x
  (h * cosh (x / ck) * sqrt (1 + sinh (x / ck) * sinh (x / ck))).
Proof using Hh Hw.
  intros x. rewrite <- cosh_sqrt. assert (Pk := ck_pos).
  assert (Dk : derivable_pt_lim (fun x => x / ck) x (1 * / ck)).
  { replace (1 * / ck) with (1 * / ck + x * 0) by ring.
    apply derivable_pt_lim_mult with (f1 := id) (f2 := fun _ => / ck);
    [apply derivable_pt_lim_id|apply derivable_pt_lim_const]. }
  replace (h * cosh (x / ck) * cosh (x / ck)) with
    (h / 2 * (1 + ck * (cosh (x / ck) * (1 * / ck) * cosh (x / ck) + sinh (x / ck) * (sinh (x / ck) * (1 * / ck))))).
  2:{ assert (Q := cosh_sinh_sq (x / ck)).
      transitivity (h / 2 * (1 + (cosh (x / ck) * cosh (x / ck) + sinh (x / ck) * sinh (x / ck)))); [field; lra|].
      replace (sinh (x / ck) * sinh (x / ck)) with (cosh (x / ck) * cosh (x / ck) - 1) by lra. field. }
  apply derivable_pt_lim_scal with (f := fun x => x + ck * (sinh (x / ck) * cosh (x / ck))).
  apply derivable_pt_lim_plus with (f1 := fun x => x); [apply derivable_pt_lim_id|].
  apply derivable_pt_lim_scal with (f := fun x => sinh (x / ck) * cosh (x / ck)).
  apply derivable_pt_lim_mult with (f1 := fun x => sinh (x / ck)) (f2 := fun x => cosh (x / ck)).
  - apply derivable_pt_lim_comp with (f1 := fun x => x / ck) (f2 := sinh); [exact Dk|apply derivable_pt_lim_sinh].
  - apply derivable_pt_lim_comp with (f1 := fun x => x / ck) (f2 := cosh); [exact Dk|apply derivable_pt_lim_cosh].
Qed.
Lemma average_R : (c2_TensionAverage c 0 : R) = h * h / (2 * w * c2_Length c) *
  (sinh (cu + cz) * cosh (cu + cz) - sinh (cu - cz) * cosh (cu - cz) + (cu + cz - (cu - cz))).
Proof using Hh Hw cur.
  unfold c2_TensionAverage, c2_Length. rewrite ens, E_right_x, E_left_x, E_h, E_w. cbn [Z.eqb]. rn. fold ck.
  rewrite !over_k. rewrite Rpow_2. assert (P := ck_pos).
  replace ((ck * (cu + cz) - ck * (cu - cz)) / ck) with (cu + cz - (cu - cz)) by (field; lra). reflexivity.
Qed.
Lemma average_mean :
  arc_mean (catenary_curve ck) (fun x => h * cosh (x / ck))
    (p2x (c2_Coordinate c (0 : R) false)) (p2x (c2_Coordinate c (1 : R) false)) (c2_TensionAverage c 0).
Proof using Ha Hh Hw cur.
  exists (fun x => sinh (x / ck)), (fun x => h / 2 * (x + ck * (sinh (x / ck) * cosh (x / ck)))), (1 * c2_Length c).
  assert (L := E_length_pos). split; [apply curve_deriv|]. split; [apply average_deriv|].
  split; [apply arc_fraction|]. rewrite Rmult_1_l. unfold c2_Length. split; [rewrite ens; apply Rgt_not_eq; exact L|].
  rewrite average_R, !coordinate_R, ct_0, ct_1. cbn [p2x]. rewrite !over_k. unfold c2_Length. rewrite ens.
  rewrite h_kw at 1. assert (P := ck_pos). rewrite h_kw. req. field. split; [|lra]. apply Rgt_not_eq. exact L.
Qed.
Lemma tension_sum_bounds : forall (lo hi : R) n, (0 < n)%Z -> (forall p : R, 0 <= p <= 1 -> lo <= c2_Tension c p <= hi) ->
  forall k i (s : R), (0 <= i)%Z -> (i + Z.of_nat k <= n + 1)%Z ->
  s + INR k * lo <= tension_sum E n i k s <= s + INR k * hi.
Proof using cur.
  intros lo hi n Hn B. induction k as [|k IH]; intros i s Hi Hk.
  - cbn. lra.
  - cbn [tension_sum]. rewrite S_INR.
    assert (Q : forall p, c2_Tension E p = c2_Tension c p).
    { intros p. unfold c2_Tension. rewrite ens, ensE. reflexivity. }
    rewrite Q.
    assert (T : lo <= c2_Tension c (IZR i / IZR n) <= hi).
    { apply B. assert (0 < IZR n) by (apply (IZR_lt 0); assumption). assert (0 <= IZR i) by (apply (IZR_le 0); assumption).
      assert (IZR i <= IZR n) by (apply IZR_le; lia). split.
      - apply Rmult_le_pos; [assumption|]. left. apply Rinv_0_lt_compat. assumption.
      - apply Rmult_le_reg_r with (IZR n); [assumption|]. unfold Rdiv. rewrite Rmult_assoc, Rinv_l; lra. }
    rn. specialize (IH (i + 1)%Z (s + c2_Tension c (IZR i / IZR n))). 
    assert (I1 : (0 <= i + 1)%Z) by lia. assert (I2 : (i + 1 + Z.of_nat k <= n + 1)%Z) by lia.
    specialize (IH I1 I2). lra.
Qed.
Lemma average_points : forall n, (0 < n)%Z -> h <= c2_TensionAverage c n <= c2_TensionMax c.
Proof using Ha Hh Hw cur.
  intros n Hn. unfold c2_TensionAverage. rewrite ens.
  destruct (n =? 0)%Z eqn:Z0; [apply Z.eqb_eq in Z0; lia|]. destruct (0 <? n)%Z eqn:Z1; [|apply Z.ltb_ge in Z1; lia].
  rn.
  assert (B := tension_sum_bounds h (c2_TensionMax c) n Hn).
  assert (B0 : forall p : R, 0 <= p <= 1 -> h <= c2_Tension c p <= c2_TensionMax c).
  { intros p Hp. split; [apply tension_ge|apply tensionmax_max, Hp]. }
  assert (B1 := B B0 (Z.to_nat (n + 1)) 0%Z 0). 
  assert (I1 : (0 <= 0)%Z) by lia. assert (I2 : (0 + Z.of_nat (Z.to_nat (n + 1)) <= n + 1)%Z) by lia. specialize (B1 I1 I2).
  replace (INR (Z.to_nat (n + 1))) with (IZR n + 1) in B1
    by (rewrite INR_IZR_INZ, Z2Nat.id by lia; rewrite plus_IZR; reflexivity).
  assert (P : 0 < IZR n) by (apply (IZR_lt 0); assumption).
  split; (apply Rmult_le_reg_r with (IZR n + 1); [lra|]); unfold Rdiv; rewrite Rmult_assoc, Rinv_l by lra; lra.
Qed.

(** The statements of the properties *)
Lemma arc_position : let k := c2_tension c / c2_weight c in
  (forall p : R, p2y (c2_Coordinate c p false) = catenary_curve k (p2x (c2_Coordinate c p false))) /\
  (forall p : R, arc_length (catenary_curve k) (p2x (c2_Coordinate c (0 : R) false))
                   (p2x (c2_Coordinate c p false)) (p * c2_Length c)) /\
  (forall p q : R, p < q -> p2x (c2_Coordinate c p false) < p2x (c2_Coordinate c q false)).
Proof using Ha Hh Hw cur. split; [exact on_curve|]. split; [exact arc_fraction|exact x_increasing]. Qed.

Lemma length_facts : let k := c2_tension c / c2_weight c in
  let a := v2x (c2_spacing c) in let b := v2y (c2_spacing c) in
  0 < c2_Length c /\
  c2_Length c * c2_Length c = b * b + (2 * k * sinh (a / (2 * k))) * (2 * k * sinh (a / (2 * k))) /\
  sqrt (a * a + b * b) < c2_Length c /\
  c2_LengthSlack c = c2_Length c - sqrt (a * a + b * b) /\ 0 < c2_LengthSlack c.
Proof using Ha Hh Hw cur.
  intros k a' b'.
  assert (P : 0 < c2_Length c) by (unfold c2_Length; rewrite ens; exact E_length_pos).
  assert (Q : c2_LengthSlack c = c2_Length c - sqrt (a' * a' + b' * b')).
  { unfold c2_LengthSlack, c2_Length. rewrite ens, E_s, mag_R. reflexivity. }
  assert (S := slack_pos).
  split; [exact P|]. split; [exact length_identity|]. split; [|split; assumption].
  rewrite Q in S. lra.
Qed.

Lemma tension_facts : let k := c2_tension c / c2_weight c in
  (forall p : R, exists s : R,
    arc_length (catenary_curve k) 0 (p2x (c2_Coordinate c p false)) s /\
    c2_Tension c p = sqrt (c2_tension c * c2_tension c + (c2_weight c * s) * (c2_weight c * s)) /\
    c2_tension c <= c2_Tension c p /\
    (c2_Tension c p = c2_tension c <-> p2x (c2_Coordinate c p false) = 0)) /\
  (forall p : R, 0 <= p <= 1 -> c2_Tension c p <= c2_TensionMax c) /\
  (c2_TensionMax c = c2_Tension c (0 : R) \/ c2_TensionMax c = c2_Tension c (1 : R)).
Proof using Ha Hh Hw cur.
  intros k. split; [|split; [exact tensionmax_max|exact tensionmax_end]].
  intros p. exists (ck * sinh (ct p)). split; [exact (low_arc p)|]. split; [exact (tension_sqrt p)|].
  split; [exact (tension_ge p)|exact (tension_eq_low p)].
Qed.

Lemma vector_facts : let k := c2_tension c / c2_weight c in
  (forall p : R, exists s : R,
    arc_length (catenary_curve k) 0 (p2x (c2_Coordinate c p false)) s /\
    c2_TensionVector c p ADPositive = mkVector2d (N := RNum) (c2_tension c) (c2_weight c * s) /\
    c2_TensionVector c p ADNegative = mkVector2d (N := RNum) (- c2_tension c) (- (c2_weight c * s)) /\
    forall d, d <> ADNull -> Vector2d_Magnitude (c2_TensionVector c p d) = c2_Tension c p) /\
  v2y (c2_TensionVector c (1 : R) ADPositive) + v2y (c2_TensionVector c (0 : R) ADNegative)
    = c2_weight c * c2_Length c.
Proof using Ha Hh Hw cur.
  intros k.
  assert (V : forall (p : R) d, d <> ADNull -> c2_TensionVector c p d =
    match d with ADNegative => mkVector2d (N := RNum) (- h) (- (w * (ck * sinh (ct p))))
    | _ => mkVector2d (N := RNum) h (w * (ck * sinh (ct p))) end) by exact tensionvector_R.
  split.
  - intros p. exists (ck * sinh (ct p)). split; [exact (low_arc p)|].
    split; [rewrite V by discriminate; reflexivity|]. split; [rewrite V by discriminate; reflexivity|].
    intros d Hd. rewrite V, mag_R, tension_sqrt by assumption. unfold mag.
    destruct d; [contradiction| |]; cbn [v2x v2y]; f_equal; fold h w; ring.
  - rewrite !V by discriminate. cbn [v2y]. unfold c2_Length. rewrite ens, E_length, ct_0, ct_1. fold w. rn. req. ring.
Qed.

Lemma angle_facts :
  (forall p : R, c2_PositionFraction c (c2_TangentAngle c p ADPositive) = p) /\
  (forall x : R, -90 < x < 90 -> c2_TangentAngle c (c2_PositionFraction c x) ADPositive = x) /\
  (forall p : R, c2_TangentAngle c p ADNegative = - c2_TangentAngle c p ADPositive) /\
  c2_TangentAngle c (c2_PositionFractionOrigin c) ADPositive = 0 /\
  c2_Coordinate c (c2_PositionFractionOrigin c) false = mkPoint2d (N := RNum) (0 : R) (0 : R).
Proof using Ha Hh Hw cur.
  split; [exact fraction_of_angle|]. split; [exact angle_of_fraction|]. split; [exact angle_negative|].
  exact origin_flat.
Qed.

Lemma sag_facts :
  (forall p : R, let q := c2_CoordinateChord c p false in
     p2x q = p2x (c2_Coordinate c p false) /\
     on_line (p2x (c2_Coordinate c (0 : R) false)) (p2y (c2_Coordinate c (0 : R) false))
             (p2x (c2_Coordinate c (1 : R) false)) (p2y (c2_Coordinate c (1 : R) false)) (p2x q) (p2y q) /\
     c2_SagAt c p = p2y q - p2y (c2_Coordinate c p false)) /\
  (forall p : R, 0 <= p <= 1 -> 0 <= c2_SagAt c p) /\
  (forall p : R, 0 < p < 1 -> 0 < c2_SagAt c p) /\
  c2_SagAt c (0 : R) = 0 /\ c2_SagAt c (1 : R) = 0 /\
  0 <= c2_PositionFractionSagPoint c <= 1 /\
  c2_Sag c = c2_SagAt c (c2_PositionFractionSagPoint c) /\
  (forall p : R, c2_SagAt c p <= c2_Sag c).
Proof using Ha Hh Hw cur.
  split.
  { intros p q. unfold q. rewrite chord_R, !coordinate_R, ct_0, ct_1. cbn [p2x p2y]. split; [reflexivity|]. split.
    - unfold on_line. rewrite slope_ends. assert (Q := cz_pos). field. lra.
    - rewrite sagat_R. unfold sag_t. req. ring. }
  split; [exact sag_range|]. split; [exact sag_pos|].
  split; [exact (proj1 sag_ends)|]. split; [exact (proj2 sag_ends)|].
  split; [exact sagpoint_range|]. split; [exact sag_R|exact sag_max].
Qed.

Lemma average_facts : let k := c2_tension c / c2_weight c in
  (forall p : R, c2_Tension c p = c2_tension c * cosh (p2x (c2_Coordinate c p false) / k)) /\
  arc_mean (catenary_curve k) (fun x => c2_tension c * cosh (x / k))
    (p2x (c2_Coordinate c (0 : R) false)) (p2x (c2_Coordinate c (1 : R) false)) (c2_TensionAverage c 0) /\
  (forall n, (0 < n)%Z -> c2_tension c <= c2_TensionAverage c n <= c2_TensionMax c).
Proof using Ha Hh Hw cur.
  intros k. split; [|split; [exact average_mean|exact average_points]].
  intros p. rewrite tension_R, coordinate_R. cbn [p2x].
  replace (ck * ct p / k) with (ct p) by (symmetry; exact (over_k (ct p))). reflexivity.
Qed.
End Real2.

Lemma run_positive : forall ks, let c := c2_run (@Catenary2d_default RNum) ks in
  0 < c2_tension c -> c2_current c.
Proof.
  intros ks c H. destruct (existsb is_setter2 ks) eqn:S.
  - apply run_setter, S.
  - exfalso. unfold c in H. rewrite run_no_setter in H by assumption. unfold Catenary2d_default, ferr in H. cbn [c2_tension] in H.
    rn. lra.
Qed.

(** ** The cache of Catenary3d, in any arithmetic *)
Section Cache3.
Context {N : Num}.

Definition c3_current (c : Catenary3d N) : Prop :=
  c3_is_updated c = true ->
    c2_spacing (c3_catenary_2d c) = spacing_2d (c3_spacing c) (c3_weight c) /\
    c2_weight (c3_catenary_2d c) = Vector3d_Magnitude (c3_weight c) /\
    c2_current (c3_catenary_2d c).

Lemma ensure3_facts : forall c : Catenary3d N, c3_current c ->
  c3_is_updated (c3_ensure c) = true /\
  c2_spacing (c3_catenary_2d (c3_ensure c)) = spacing_2d (c3_spacing c) (c3_weight c) /\
  c2_weight (c3_catenary_2d (c3_ensure c)) = Vector3d_Magnitude (c3_weight c) /\
  c2_tension (c3_catenary_2d (c3_ensure c)) = c2_tension (c3_catenary_2d c) /\
  c2_current (c3_catenary_2d (c3_ensure c)) /\
  c3_spacing (c3_ensure c) = c3_spacing c /\ c3_weight (c3_ensure c) = c3_weight c /\
  c3_direction (c3_ensure c) = c3_direction c.
Proof.
  intros c I. unfold c3_ensure. destruct (c3_is_updated c) eqn:U.
  - destruct (I U) as (A & B & C). repeat split; assumption.
  - cbn. repeat split. intros V. discriminate V.
Qed.

Lemma current3_ensure : forall c, c3_current c -> c3_current (c3_ensure c).
Proof.
  intros c I. destruct (ensure3_facts c I) as (_ & A & B & _ & C & D & E & _). intros _. rewrite D, E. auto.
Qed.

Lemma c2_ensure_inputs : forall c : Catenary2d N, c2_spacing (c2_ensure c) = c2_spacing c /\
  c2_tension (c2_ensure c) = c2_tension c /\ c2_weight (c2_ensure c) = c2_weight c.
Proof. intros c. unfold c2_ensure. destruct (c2_is_updated c); auto. Qed.

Lemma c2_ensure_current : forall c : Catenary2d N, c2_current c -> c2_current (c2_ensure c).
Proof. intros c I. rewrite ensure_current by assumption. intros _. reflexivity. Qed.

Lemma call3_current : forall c k, c3_current c -> c3_current (c3_call c k).
Proof.
  intros c k I. destruct k; cbn [c3_call]; try (intros U; discriminate U); try (exact I).
  - intros U. destruct (I U) as (A & B & C). cbn. repeat split; try assumption. intros V; discriminate V.
  - unfold c3_after. assert (J := current3_ensure c I). destruct uses_2d; [|assumption].
    intros U. cbn in *. destruct (J U) as (A & B & C).
    destruct (c2_ensure_inputs (c3_catenary_2d (c3_ensure c))) as (E1 & E2 & E3). rewrite E1, E3.
    repeat split; try assumption. apply c2_ensure_current, C.
  - unfold c3_after_Validate. destruct (c3_inputs_valid c); [apply current3_ensure|]; assumption.
Qed.

Lemma run3_current : forall ks c, c3_current c -> c3_current (c3_run c ks).
Proof. induction ks as [|k ks IH]; intros c I; [assumption|]. cbn. apply IH, call3_current, I. Qed.

Lemma default3_current : c3_current (@Catenary3d_default N).
Proof. intros U. discriminate U. Qed.

(** Two 3D catenaries whose refreshed parts agree answer alike. *)
Definition same3 (c c' : Catenary3d N) : Prop :=
  (forall q, c2_answer (c3_catenary_2d c) q = c2_answer (c3_catenary_2d c') q) /\
  c3_spacing c = c3_spacing c' /\ c3_weight c = c3_weight c' /\ c3_direction c = c3_direction c'.

Lemma ensure3_idem : forall c : Catenary3d N, c3_ensure (c3_ensure c) = c3_ensure c.
Proof. intros c. unfold c3_ensure at 2 3. destruct (c3_is_updated c) eqn:U; [unfold c3_ensure; rewrite U; reflexivity|reflexivity]. Qed.

Lemma inputs_valid_same : forall c c' : Catenary3d N, c3_spacing c = c3_spacing c' -> c3_weight c = c3_weight c' ->
  c3_inputs_valid c = c3_inputs_valid c'.
Proof. intros c c' A B. unfold c3_inputs_valid. rewrite A, B. reflexivity. Qed.

Lemma answer3_same : forall c c' q, same3 (c3_ensure c) (c3_ensure c') ->
  c3_spacing c = c3_spacing c' -> c3_weight c = c3_weight c' -> c3_direction c = c3_direction c' ->
  c2_tension (c3_catenary_2d c) = c2_tension (c3_catenary_2d c') ->
  c3_answer c q = c3_answer c' q.
Proof.
  intros c c' q (A & S & W & D) Es Ew Ed Et.
  assert (A1 : forall p s, c2_Coordinate (c3_catenary_2d (c3_ensure c)) p s = c2_Coordinate (c3_catenary_2d (c3_ensure c')) p s)
    by (intros p s; assert (Q := A (Q2Coordinate p s)); injection Q; auto).
  assert (A2 : forall p s, c2_CoordinateChord (c3_catenary_2d (c3_ensure c)) p s = c2_CoordinateChord (c3_catenary_2d (c3_ensure c')) p s)
    by (intros p s; assert (Q := A (Q2CoordinateChord p s)); injection Q; auto).
  assert (A3 : forall p d, c2_TangentVector (c3_catenary_2d (c3_ensure c)) p d = c2_TangentVector (c3_catenary_2d (c3_ensure c')) p d)
    by (intros p d; assert (Q := A (Q2TangentVector p d)); injection Q; auto).
  assert (A4 : forall p, c2_Tension (c3_catenary_2d (c3_ensure c)) p = c2_Tension (c3_catenary_2d (c3_ensure c')) p)
    by (intros p; assert (Q := A (Q2Tension p)); injection Q; auto).
  assert (A5 : c2_spacing (c3_catenary_2d (c3_ensure c)) = c2_spacing (c3_catenary_2d (c3_ensure c')))
    by (assert (Q := A Q2Spacing); injection Q; auto).
  assert (B1 : forall p, c3_CoordinateChord c p = c3_CoordinateChord c' p)
    by (intros p; unfold c3_CoordinateChord; rewrite A2, S, A5; reflexivity).
  assert (B1' : forall p, c3_CoordinateChord (c3_ensure c) p = c3_CoordinateChord (c3_ensure c') p)
    by (intros p; unfold c3_CoordinateChord; rewrite !ensure3_idem, A2, S, A5; reflexivity).
  assert (B2 : forall c0 : Catenary3d N, c3_SwingAngle (c3_ensure c0) = c3_SwingAngle c0)
    by (intros; unfold c3_SwingAngle; rewrite ensure3_idem; reflexivity).
  assert (B3 : c3_SwingAngle c = c3_SwingAngle c')
    by (unfold c3_SwingAngle; rewrite W; reflexivity).
  assert (B4 : forall p d, c3_TangentVector c p d = c3_TangentVector c' p d).
  { intros p d. unfold c3_TangentVector. rewrite !B2, B3, A3, S, W, D, A5. reflexivity. }
  assert (B5 : forall (c0 : Catenary3d N) p d, c3_TangentVector (c3_ensure c0) p d = c3_TangentVector c0 p d).
  { intros c0 p d. unfold c3_TangentVector. rewrite ensure3_idem. reflexivity. }
  destruct q; cbn [c3_answer].
  - assert (Q := A Q2Constant). exact Q.
  - f_equal. unfold c3_Coordinate. rewrite B1', A1, A2, S, W, D, A5. reflexivity.
  - f_equal. apply B1.
  - exact (A Q2Length).
  - exact (A Q2LengthSlack).
  - exact (A Q2Origin).
  - exact (A Q2SagPoint).
  - exact (A Q2Sag).
  - exact (A (Q2SagAt p)).
  - f_equal. apply B3.
  - f_equal. unfold c3_TangentAngleTransverse. rewrite !B5, B4. reflexivity.
  - f_equal. unfold c3_TangentAngleVertical. rewrite !B5, B4. reflexivity.
  - f_equal. apply B4.
  - exact (A (Q2Tension p)).
  - f_equal. unfold c3_TensionVector. rewrite !B5, B4, A4. reflexivity.
  - exact (A (Q2TensionAverage n)).
  - exact (A Q2TensionMax).
  - unfold c3_Validate. rewrite (inputs_valid_same c c' Es Ew). destruct (c3_inputs_valid c'); [exact (A Q2Validate)|reflexivity].
  - f_equal. exact Ed.
  - f_equal. exact Es.
  - unfold c3_tension_horizontal. rewrite Et. reflexivity.
  - f_equal. exact Ew.
Qed.

Lemma history3 : forall ks q,
  let c := c3_run (@Catenary3d_default N) ks in
  c3_answer c q = c3_answer (c3_fresh (c3_direction c) (c3_spacing c) (c3_tension_horizontal c) (c3_weight c)) q.
Proof.
  intros ks q c. assert (I : c3_current c) by (apply run3_current, default3_current).
  set (f := c3_fresh _ _ _ _). assert (J : c3_current f) by (intros U; discriminate U).
  destruct (ensure3_facts c I) as (A1 & A2 & A3 & A4 & A5 & A6 & A7 & A8).
  destruct (ensure3_facts f J) as (B1 & B2 & B3 & B4 & B5 & B6 & B7 & B8).
  apply answer3_same; try reflexivity. unfold same3.
  rewrite A6, A7, A8, B6, B7, B8. split; [|auto].
  intros q'. apply answer_ensure.
  - rewrite !ensure_current by assumption. apply Update_inputs; [rewrite A2, B2|rewrite A4, B4|rewrite A3, B3]; reflexivity.
  - rewrite A2, B2. reflexivity.
  - rewrite A4, B4. reflexivity.
  - rewrite A3, B3. reflexivity.
Qed.

Lemma inputs3 : forall ks (c : Catenary3d N),
  c3_direction (c3_run c ks) = last_of pick3_direction ks (c3_direction c) /\
  c3_spacing (c3_run c ks) = last_of pick3_spacing ks (c3_spacing c) /\
  c3_tension_horizontal (c3_run c ks) = last_of pick3_tension ks (c3_tension_horizontal c) /\
  c3_weight (c3_run c ks) = last_of pick3_weight ks (c3_weight c).
Proof.
  induction ks as [|k ks IH]; intros c; [auto|].
  cbn [c3_run fold_left last_of]. fold (c3_run (c3_call c k) ks).
  destruct (IH (c3_call c k)) as (-> & -> & -> & ->).
  assert (H : c3_direction (c3_ensure c) = c3_direction c /\ c3_spacing (c3_ensure c) = c3_spacing c /\
              c3_tension_horizontal (c3_ensure c) = c3_tension_horizontal c /\ c3_weight (c3_ensure c) = c3_weight c).
  { unfold c3_ensure. destruct (c3_is_updated c); auto. }
  destruct H as (H1 & H2 & H3 & H4).
  destruct k; cbn; auto.
  - unfold c3_after. destruct uses_2d; cbn; [|rewrite H1, H2, H3, H4; auto].
    unfold c3_tension_horizontal. cbn. rewrite (proj1 (proj2 (c2_ensure_inputs _))).
    unfold c3_tension_horizontal in H3. rewrite H1, H2, H3, H4. auto.
  - unfold c3_after_Validate. destruct (c3_inputs_valid c); [rewrite H1, H2, H3, H4; auto|auto].
Qed.

Lemma history2_all : forall ks q,
  let c := c2_run (@Catenary2d_default N) ks in
  c2_answer c q =
  c2_answer (if existsb is_setter2 ks then c2_fresh (c2_spacing c) (c2_tension c) (c2_weight c) else Catenary2d_default) q.
Proof.
  intros ks q c. destruct (existsb is_setter2 ks) eqn:S.
  - apply history2, S.
  - unfold c. rewrite run_no_setter by assumption. reflexivity.
Qed.
End Cache3.
