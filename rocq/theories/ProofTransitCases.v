(** Concrete transit saggers in exact arithmetic: a level span of 1000 ft. *)
From Coq Require Import ZArith Bool List Reals Lra Lia Psatz.
From Verif Require Import Num NumFacts ModelBase ModelCatenary SpecCatenary SpecCatenary3 ModelSagtension ModelSagging SpecSagging
  HypFacts ProofReal ProofVector ProofCatenary ProofCatenary3 ProofSolverTarget ProofSolverCases ProofCorrectorCases ProofSearch ProofSagging ProofTransit
  ProofTransitGeom ProofSaggers.
Import ListNotations.
Open Scope R_scope.

Lemma Round_R : forall a : R, -60 <= a -> Round (N := RNum) a 0 <> -90.
Proof.
  intros a H. unfold Round. rn.
  assert (P : Rpow_c 10 0 = 1) by (change 0 with (IZR 0); rewrite Rpow_c_Z; reflexivity).
  rewrite P. unfold Rdiv. rewrite Rmult_1_r, Rinv_1, Rmult_1_r. unfold Rround_c.
  destruct (Rle_dec 0 a) as [L|L].
  - generalize (base_Int_part (a + / 2)). intros (B1 & B2). lra.
  - generalize (base_Int_part (- a + / 2)). intros (B1 & B2). lra.
Qed.

Lemma atan_m1 : forall x, -1 <= x -> -60 <= @rad2deg RNum (atan x).
Proof.
  intros x H. rewrite rad2deg_R.
  assert (A : - (PI / 4) <= atan x).
  { rewrite <- atan_1, <- atan_opp. destruct H as [H|H]; [left; apply atan_increasing, H|right; f_equal; exact H]. }
  assert (PK := PI_K). assert (KP := K_pos).
  assert (Q : 0 < 180 / K) by (apply Rdiv_lt_0_compat; lra).
  assert (- (PI / 4) * (180 / K) <= atan x * (180 / K)) by (apply Rmult_le_compat_r; lra).
  assert (- (PI / 4) * (180 / K) = -45 * (PI / K)) by (field; lra).
  assert (PI / K <= 60 / 45). { apply Rmult_le_reg_r with K; [lra|]. unfold Rdiv at 1. rewrite Rmult_assoc, Rinv_l by lra. unfold K in *. lra. }
  lra.
Qed.

Section Answer.
Variable c : Catenary3d RNum.
Variable q : Point3d RNum.
Hypothesis seen : forall p : R, 0 <= p <= 1 -> 0 < away q (c3_Coordinate c p) /\ -1 <= rise q (c3_Coordinate c p).
Hypothesis low0 : rise q (c3_Coordinate c (1 / 2 : R)) < rise q (c3_Coordinate c (0 : R)).
Hypothesis low1 : rise q (c3_Coordinate c (1 / 2 : R)) < rise q (c3_Coordinate c (1 : R)).

Lemma answers : exists s', ts_Update (ts_fresh c q) = Ok (true, s') /\ exists a : R, AngleLow (ts_fresh c q) = Ok (a, s') /\ a <> -999999.
Proof.
  set (s := ts_fresh c q). assert (OK := Update_ok s).
  assert (A := search_all RNum_round (sight s) search_fuel ltac:(unfold search_fuel; lia)). destruct A as (A & _).
  unfold ts_Update, UpdatePointCatenaryLow in *.
  destruct (search (sight s) search_fuel Search_start) as [[r|]| |] eqn:E; cbn [obind found is_ok] in *; try contradiction; try discriminate OK.
  destruct (search_found (sight s) _ r E) as (G & _). clear OK A.
  assert (MID := st_grid _ _ G 5 ltac:(lia)). replace (INR 5 / 10) with (1 / 2) in MID by (cbn; lra).
  assert (PR := st_pos _ _ G). set (t := se_position r) in *.
  change (sight s t) with (AngleVertical q (c3_Coordinate c t)) in MID. change (sight s (1 / 2)) with (AngleVertical q (c3_Coordinate c (1 / 2 : R))) in MID.
  destruct (seen t PR) as (W & RG). destruct (seen (1 / 2) ltac:(lra)) as (WM & _). destruct (seen 0 ltac:(lra)) as (W0 & _). destruct (seen 1 ltac:(lra)) as (W1 & _).
  apply Vertical_le in MID; try assumption.
  assert (N0 : t <> 0) by (intros Z; rewrite Z in MID; lra). assert (N1 : t <> 1) by (intros Z; rewrite Z in MID; lra).
  assert (E0 : feqb (n := RNum) t (fofZ 0) = false) by (rn; apply Reqb_false; exact N0).
  assert (E1 : feqb (n := RNum) t (fofZ 1) = false) by (rn; apply Reqb_false; exact N1).
  rewrite E0, E1. cbn [orb obind]. unfold UpdateAngleLow. cbn [ts_low ts_transit ts_catenary].
  set (ang := AngleVertical (ts_transit s) (c3_Coordinate (ts_catenary s) t)).
  assert (AV : ang = @rad2deg RNum (atan (rise q (c3_Coordinate c t)))) by (apply Vertical_R, W).
  assert (AL : -60 <= ang) by (rewrite AV; apply atan_m1, RG).
  assert (RD : feqb (n := RNum) (Round ang 0) (fofZ (-90)) = false) by (rn; apply Reqb_false, Round_R, AL).
  rewrite RD. cbn [negb].
  eexists. split; [reflexivity|]. exists ang.
  unfold AngleLow, ts_ensure. change (ts_updated s) with false. cbn match. unfold ts_Update, UpdatePointCatenaryLow. rewrite E. cbn [obind]. fold t.
  rewrite E0, E1. cbn [orb obind]. unfold UpdateAngleLow. cbn [ts_low ts_transit ts_catenary]. fold ang. rewrite RD. cbn [negb obind ts_flag ts_angle].
  split; [reflexivity|]. lra.
Qed.
End Answer.

(** A level span: 1000 ft, 800 lb, 1 lb/ft. *)
Definition lv_calls : list (C3Call RNum) :=
  [ C3SetDirection ADPositive; C3SetSpacing (mkVector3d (N := RNum) (1000 : R) (0 : R) (0 : R)); C3SetTension (N := RNum) (800 : R);
    C3SetWeight (mkVector3d (N := RNum) (0 : R) (0 : R) (1 : R)) ].
Definition lv : Catenary3d RNum := c3_run Catenary3d_default lv_calls.
Lemma lv_fresh : lv = c3_fresh ADPositive (mkVector3d (N := RNum) (1000 : R) (0 : R) (0 : R)) (800 : R) (mkVector3d (N := RNum) (0 : R) (0 : R) (1 : R)).
Proof. reflexivity. Qed.
Lemma lv_usable : usable3 lv.
Proof. rewrite lv_fresh. apply cat_usable; [unfold inputs_ok; cbn; lra|lra]. Qed.
Lemma lv_current : c3_current lv. Proof. apply run3_usable. Qed.
Lemma lv_valid : c3_Validate lv = true.
Proof.
  rewrite lv_fresh. apply cat_valid; [unfold inputs_ok; cbn; lra|cbn; rewrite Rabs_R0; lra|lra|].
  assert (A : (Vector3d_Magnitude (mkVector3d (N := RNum) (1000 : R) (0 : R) (0 : R)) : R) = 1000) by (apply mag_axis; lra).
  assert (B : (Vector3d_Magnitude (mkVector3d (N := RNum) (0 : R) (0 : R) (1 : R)) : R) = 1) by (apply mag_axis_z; lra).
  rewrite A, B. lra.
Qed.
Lemma lv_calm : (v3y (c3_weight lv) : R) = 0. Proof. reflexivity. Qed.

Definition lvd : Catenary2d RNum := c3_catenary_2d (c3_ensure lv).
Lemma lv_ck : ck lvd = 800.
Proof.
  unfold ck, lvd. rewrite (d_tension lv lv_current), (d_weight lv lv_current lv_usable).
  assert (W : W3 lv = 1) by exact (calm_W (ts_fresh lv Point3d_default) lv_usable lv_calm). rewrite W.
  change (c3_tension_horizontal lv) with (800 : R). field.
Qed.
Lemma lv_spacing : c2_spacing lvd = mkVector2d (N := RNum) (1000 : R) (0 : R).
Proof.
  unfold lvd. rewrite (d_spacing lv lv_current lv_usable).
  f_equal; [exact (calm_a (ts_fresh lv Point3d_default) lv_usable lv_calm)|exact (calm_b (ts_fresh lv Point3d_default) lv_usable lv_calm)].
Qed.
Lemma lv_cz : cz lvd = 5 / 8.
Proof. unfold cz. rewrite lv_ck, lv_spacing. cbn [v2x]. lra. Qed.
Lemma arcsinh_0 : arcsinh 0 = 0.
Proof. apply sinh_inj. rewrite sinh_arcsinh, sinh_0. reflexivity. Qed.
Lemma lv_cu : cu lvd = 0.
Proof. unfold cu. rewrite lv_spacing. cbn [v2y]. unfold Rdiv. rewrite !Rmult_0_l. apply arcsinh_0. Qed.
Lemma lv_half : ct lvd (1 / 2) = 0.
Proof.
  unfold ct. rewrite lv_cu, Rplus_0_l, Rminus_0_l, sinh_neg.
  replace (1 / 2 * sinh (cz lvd) + (1 - 1 / 2) * - sinh (cz lvd)) with 0 by field. apply arcsinh_0.
Qed.

Lemma lv_point : forall p : R, c3_Coordinate lv p = mkPoint3d (N := RNum) (800 * (ct lvd p + 5 / 8)) (0 : R) (800 * (cosh (ct lvd p) - cosh (5 / 8))).
Proof.
  intros p. assert (C := calm_curve (ts_fresh lv Point3d_default) lv_current lv_usable lv_calm p).
  change (ts_catenary (ts_fresh lv Point3d_default)) with lv in C. rewrite C. fold lvd. rewrite (ct_0 lvd), lv_ck, lv_cu, lv_cz.
  replace (0 - 5 / 8) with (- (5 / 8)) by ring. rewrite cosh_neg. f_equal; ring.
Qed.

Lemma cosh_low : 1 + 25 / 128 <= cosh (5 / 8).
Proof.
  replace (5 / 8) with (5 / 16 + 5 / 16) by lra. rewrite cosh_plus. generalize (cosh_sinh_sq (5 / 16)), (sinh_gt (5 / 16) ltac:(lra)). nra.
Qed.
Lemma cosh_high : cosh (5 / 8) <= 7 / 4 + 1 / 8.
Proof.
  unfold cosh. assert (A : exp (- (5 / 8)) <= 1) by (rewrite <- exp_0; left; apply exp_increasing; lra).
  assert (B : 1 + - (5 / 8) <= exp (- (5 / 8))) by (left; apply exp_ineq1; lra).
  assert (C := exp_both (5 / 8)). assert (D := exp_pos (5 / 8)). nra.
Qed.

Lemma lv_ct : forall p : R, 0 <= p <= 1 -> - (5 / 8) <= ct lvd p <= 5 / 8.
Proof.
  intros p (A & B).
  assert (H := d_h_pos lv lv_current lv_usable). assert (W := d_w_pos lv lv_current lv_usable). assert (S := d_a_pos lv lv_current lv_usable). fold lvd in H, W, S.
  assert (L := ct_le lvd H W S 0 p A). assert (U := ct_le lvd H W S p 1 B). rewrite (ct_0 lvd), lv_cu, lv_cz in L. rewrite (ct_1 lvd), lv_cu, lv_cz in U. lra.
Qed.
Lemma lv_Z : forall p : R, 0 <= p <= 1 -> -700 <= p3z (c3_Coordinate lv p) <= 0.
Proof.
  intros p P. rewrite lv_point. cbn [p3z]. generalize (lv_ct p P), (cosh_ge_1 (ct lvd p)), cosh_high. intros.
  split; [lra|]. assert (cosh (ct lvd p) <= cosh (5 / 8)); [|lra].
  generalize (cosh_between (- (5 / 8)) (5 / 8) (ct lvd p) H). rewrite cosh_neg, Rmax_left by lra. auto.
Qed.
Lemma lv_mid : c3_Coordinate lv (1 / 2 : R) = mkPoint3d (N := RNum) (500 : R) (0 : R) (800 * (1 - cosh (5 / 8))) /\ 800 * (1 - cosh (5 / 8)) <= -156.
Proof.
  rewrite lv_point, lv_half, cosh_0. split; [f_equal; lra|]. generalize cosh_low. lra.
Qed.
Lemma lv_ends : c3_Coordinate lv (0 : R) = mkPoint3d (N := RNum) (0 : R) (0 : R) (0 : R) /\ c3_Coordinate lv (1 : R) = mkPoint3d (N := RNum) (1000 : R) (0 : R) (0 : R).
Proof.
  rewrite !lv_point, (ct_0 lvd), (ct_1 lvd), lv_cu, lv_cz. replace (0 - 5 / 8) with (- (5 / 8)) by ring. rewrite cosh_neg, Rplus_0_l.
  split; f_equal; lra.
Qed.

(** A transit behind the span, in its plane. *)
Definition lv_behind : Point3d RNum := mkPoint3d (N := RNum) (-1000 : R) (0 : R) (-50 : R).
Lemma behind_away : forall p : R, 0 <= p <= 1 -> away lv_behind (c3_Coordinate lv p) = 800 * (ct lvd p + 5 / 8) + 1000 /\ 1000 <= away lv_behind (c3_Coordinate lv p).
Proof.
  intros p P. assert (C := lv_ct p P).
  assert (E : away lv_behind (c3_Coordinate lv p) = 800 * (ct lvd p + 5 / 8) + 1000).
  { unfold away. rewrite lv_point. cbn [p3x p3y lv_behind].
    match goal with |- sqrt ?x = ?y => replace x with (y * y) by ring end. apply sqrt_square. lra. }
  split; [exact E|]. rewrite E. lra.
Qed.
Lemma behind_seen : forall p : R, 0 <= p <= 1 -> 0 < away lv_behind (c3_Coordinate lv p) /\ -1 <= rise lv_behind (c3_Coordinate lv p).
Proof.
  intros p P. destruct (behind_away p P) as (_ & A). assert (Z := lv_Z p P). split; [lra|].
  unfold rise. apply Rmult_le_reg_r with (away lv_behind (c3_Coordinate lv p)); [lra|].
  unfold Rdiv. rewrite Rmult_assoc, Rinv_l, Rmult_1_r by lra. cbn [p3z lv_behind]. lra.
Qed.
Lemma behind_answers : exists s', ts_Update (ts_fresh lv lv_behind) = Ok (true, s') /\
  exists a : R, AngleLow (ts_fresh lv lv_behind) = Ok (a, s') /\ a <> -999999.
Proof.
  destruct lv_mid as (M & ML). destruct lv_ends as (E0 & E1).
  assert (RM : rise lv_behind (c3_Coordinate lv (1 / 2 : R)) < 0).
  { destruct (behind_seen (1 / 2) ltac:(lra)) as (A & _). unfold rise. rewrite M in *. cbn [p3z lv_behind].
    apply Rmult_lt_reg_r with (away lv_behind (mkPoint3d (N := RNum) (500 : R) (0 : R) (800 * (1 - cosh (5 / 8))))); [exact A|].
    unfold Rdiv. rewrite Rmult_assoc, Rinv_l, Rmult_1_r by lra. lra. }
  assert (R0 : forall e : R, (e = 0 \/ e = 1) -> 0 <= rise lv_behind (c3_Coordinate lv e)).
  { intros e H. destruct (behind_seen e ltac:(lra)) as (A & _). unfold rise. apply Rmult_le_pos; [|left; apply Rinv_0_lt_compat, A].
    destruct H as [-> | ->]; [rewrite E0|rewrite E1]; cbn [p3z lv_behind]; lra. }
  apply answers; [exact behind_seen| |]; [generalize (R0 0 (or_introl eq_refl))|generalize (R0 1 (or_intror eq_refl))]; intros; lra.
Qed.

(** A transit beside the span, above the cable. *)
Definition lv_side : Point3d RNum := mkPoint3d (N := RNum) (500 : R) (700 : R) (-1 : R).
Lemma side_away : forall p : R, 700 <= away lv_side (c3_Coordinate lv p).
Proof.
  intros p. unfold away. rewrite lv_point. cbn [p3x p3y lv_side]. rewrite <- (sqrt_square 700) at 1 by lra. apply sqrt_le_1_alt. nra.
Qed.
Lemma side_seen : forall p : R, 0 <= p <= 1 -> 0 < away lv_side (c3_Coordinate lv p) /\ -1 <= rise lv_side (c3_Coordinate lv p).
Proof.
  intros p P. assert (A := side_away p). assert (Z := lv_Z p P). split; [lra|].
  unfold rise. apply Rmult_le_reg_r with (away lv_side (c3_Coordinate lv p)); [lra|].
  unfold Rdiv. rewrite Rmult_assoc, Rinv_l, Rmult_1_r by lra. cbn [p3z lv_side]. lra.
Qed.
Lemma side_answers : exists s', ts_Update (ts_fresh lv lv_side) = Ok (true, s') /\
  exists a : R, AngleLow (ts_fresh lv lv_side) = Ok (a, s') /\ a <> -999999.
Proof.
  destruct lv_mid as (M & ML). destruct lv_ends as (E0 & E1).
  assert (RM : rise lv_side (c3_Coordinate lv (1 / 2 : R)) < 0).
  { destruct (side_seen (1 / 2) ltac:(lra)) as (A & _). unfold rise. rewrite M in *. cbn [p3z lv_side].
    apply Rmult_lt_reg_r with (away lv_side (mkPoint3d (N := RNum) (500 : R) (0 : R) (800 * (1 - cosh (5 / 8))))); [exact A|].
    unfold Rdiv. rewrite Rmult_assoc, Rinv_l, Rmult_1_r by lra. lra. }
  assert (R0 : forall e : R, (e = 0 \/ e = 1) -> 0 <= rise lv_side (c3_Coordinate lv e)).
  { intros e H. destruct (side_seen e ltac:(lra)) as (A & _). unfold rise. apply Rmult_le_pos; [|left; apply Rinv_0_lt_compat, A].
    destruct H as [-> | ->]; [rewrite E0|rewrite E1]; cbn [p3z lv_side]; lra. }
  apply answers; [exact side_seen| |]; [generalize (R0 0 (or_introl eq_refl))|generalize (R0 1 (or_intror eq_refl))]; intros; lra.
Qed.
Lemma side_valid : exists s', ts_Validate (ts_fresh lv lv_side) = Ok (true, s').
Proof.
  destruct side_answers as (s' & U & _). exists s'. unfold ts_Validate.
  assert (V : ts_inputs_valid (ts_fresh lv lv_side) = true).
  { unfold ts_inputs_valid. change (ts_catenary (ts_fresh lv lv_side)) with lv. change (ts_transit (ts_fresh lv lv_side)) with lv_side.
    rewrite lv_valid. change (v3z (c3_spacing lv)) with (0 : R). cbn [lv_side p3x p3y p3z andb]. rn. unfold ferr. rewrite Rlit0.
    rewrite !(proj2 (Reqb_false _ _)), (proj2 (Rltb_false _ _)) by lra. reflexivity. }
  rewrite V. exact U.
Qed.
