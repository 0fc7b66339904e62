(** On a steep span more load can mean less tension at the lower end. *)
From Coq Require Import ZArith Bool List Reals Lra Lia.
From Verif Require Import Num NumFacts ModelBase ModelCatenary SpecCatenary ProofReal ProofVector HypFacts ProofCatenary
  SpecCatenary3 ProofCatenary3 SpecScale3 ProofScale3 ModelSolver SpecSolver ProofSolver ProofSolverReal ProofSolverRate
  ProofSolverTarget ProofSolverCases ProofSpan ProofTight ProofHeavier.
Import ListNotations.
Open Scope R_scope.

(** A span as long as it is high, of 1000 each, with the weight [w]. *)
Definition steep : Vector3d RNum := mkVector3d (N := RNum) (1000 : R) (0 : R) (1000 : R).
Definition steep_calls (w : R) : list (C3Call RNum) :=
  [ C3SetSpacing steep; C3Query true; C3SetTension (2000 : RNum); C3SetWeight (hang w) ].

Lemma steep_shape : forall w, 0 < w -> let c := c3_fresh ADPositive steep (1 : RNum) (hang w) in
  inputs_ok steep (hang w) /\ W3 c = w /\ b3 c = 1000 /\ a3 c = 1000.
Proof.
  intros w Hw c. assert (O : inputs_ok steep (hang w)) by (unfold inputs_ok, steep, hang; cbn [v3x v3y v3z]; repeat split; lra).
  assert (U : usable3 c) by (apply (cat_usable _ _ 1 O); lra).
  assert (W : W3 c = w) by (rewrite <- (magw c U); apply mag_axis_z; lra).
  assert (B : b3 c = 1000). { unfold b3. rewrite W. change (v3z (c3_spacing c)) with 1000. change (v3z (c3_weight c)) with w. field. lra. }
  split; [exact O|]. split; [exact W|]. split; [exact B|].
  unfold a3. rewrite B. assert (Q := S3_sq c). change (v3z (c3_spacing c)) with 1000 in Q. change (v3x (c3_spacing c)) with 1000 in Q.
  rewrite Q. replace (1000 * 1000 + 1000 * 1000 - 1000 * 1000) with (1000 * 1000) by ring. apply sqrt_square. lra.
Qed.

Lemma steep_valid : forall w, 0 < w <= 2 -> c3_Validate (c3_run (@Catenary3d_default RNum) (steep_calls w)) = true.
Proof.
  intros w H. destruct (run_fresh (steep_calls w)) as (F1 & _). rewrite F1.
  apply (cat_valid steep (hang w) 2000).
  - apply (steep_shape w (proj1 H)).
  - cbn. rewrite Rabs_pos_eq; lra.
  - lra.
  - unfold hang. rewrite (mag_axis_z w) by lra. rewrite mag3_R. unfold length3, steep. cbn [v3x v3y v3z].
    assert (S : sqrt (1000 * 1000 + 0 * 0 + 1000 * 1000) <= 1500). { rewrite <- (sqrt_square 1500) by lra. apply sqrt_le_1_alt. lra. }
    change (F RNum) with R. assert (P := sqrt_pos (1000 * 1000 + 0 * 0 + 1000 * 1000)). nra.
Qed.

Lemma steep_left : forall w, 0 < w ->
  (c3_Tension (c3_run (@Catenary3d_default RNum) (steep_calls w)) (0 : R) : R) = w * (endmean 1000 1000 (2000 / w) - 500).
Proof.
  intros w H. destruct (run_fresh (steep_calls w)) as (_ & _ & _ & F4 & _). rewrite F4.
  destruct (steep_shape w H) as (O & W & B & A). destruct (ends_R steep (hang w) O 2000 ltac:(lra)) as (E & _).
  rewrite W, B, A in E. change (F RNum) with R in *. replace (1000 / 2) with 500 in E by field. exact E.
Qed.

Lemma half_cosh : cosh (1 / 2) <= 1.16.
Proof.
  assert (P := exp_le_3). assert (E : exp (1 / 2) * exp (1 / 2) = exp 1) by (rewrite <- exp_plus; f_equal; lra).
  assert (I := exp_both (1 / 2)). assert (X := exp_pos (1 / 2)). assert (Y := exp_pos (- (1 / 2))).
  assert (L : 1 <= exp (1 / 2)) by (assert (Q := exp_ineq1 (1 / 2) ltac:(lra)); lra).
  unfold cosh. set (u := exp (1 / 2)) in *. set (v := exp (- (1 / 2))) in *.
  assert (U : u <= 1.7321) by nra. assert (V : v <= u) by nra.
  assert (Z : (u + v) * (u + v) = u * u + 2 + v * v) by (transitivity (u * u + 2 * (u * v) + v * v); [ring|rewrite I; ring]).
  assert (G : 1.72 <= u \/ u < 1.72) by lra. destruct G as [G|G].
  - assert (v <= 0.5814) by nra. lra.
  - assert (M : 0 <= (u - 1) * (1.72 - u)) by nra. assert (v <= 2.72 / 1.72 - u / 1.72 + 0) by nra. nra.
Qed.

Lemma heavier_end : exists ks ks', let c := c3_run (@Catenary3d_default RNum) ks in let c' := c3_run (@Catenary3d_default RNum) ks' in
  c3_Validate c = true /\ c3_Validate c' = true /\ c3_spacing c = c3_spacing c' /\
  c3_tension_horizontal c = c3_tension_horizontal c' /\ multiple3 2 (c3_weight c) (c3_weight c') /\
  c3_Tension c' (0 : R) < c3_Tension c (0 : R) - 40.
Proof.
  exists (steep_calls 1), (steep_calls 2). cbv zeta.
  split; [apply steep_valid; lra|]. split; [apply steep_valid; lra|]. split; [reflexivity|]. split; [reflexivity|].
  split; [unfold multiple3; cbn; change (F RNum) with R; repeat split; lra|].
  rewrite !steep_left by lra. change (F RNum) with R.
  unfold endmean, leaning, weighty. rewrite (Rabs_pos_eq 1000) by lra.
  replace (1000 / 2) with 500 by field. replace (500 / (2000 / 2)) with (1 / 2) by field. replace (500 / (2000 / 1)) with (1 / 4) by field.
  replace (2000 / 2) with 1000 by field. replace (2000 / 1) with 2000 by field.
  assert (HC := half_cosh). assert (C2 := cosh_ge_1 (1 / 2)). assert (C4 := cosh_ge_1 (1 / 4)).
  assert (S2 := sinh_gt (1 / 2) ltac:(lra)). assert (S4 := sinh_gt (1 / 4) ltac:(lra)). assert (Q4 := sinh_cosh (1 / 4) ltac:(lra)).
  assert (K2 : 0 <= cosh (1 / 2) / sinh (1 / 2) <= 2.32).
  { split; [left; apply Rdiv_lt_0_compat; lra|]. apply Rmult_le_reg_r with (sinh (1 / 2)); [lra|]. unfold Rdiv at 1.
    rewrite Rmult_assoc, Rinv_l by lra. lra. }
  assert (K4 : 4 <= cosh (1 / 4) / sinh (1 / 4)).
  { apply Rmult_le_reg_r with (sinh (1 / 4)); [lra|]. unfold Rdiv at 2. rewrite Rmult_assoc, Rinv_l by lra. lra. }
  set (x := cosh (1 / 2) / sinh (1 / 2)) in *. set (y := cosh (1 / 4) / sinh (1 / 4)) in *.
  set (u := cosh (1 / 2)) in *. set (v := cosh (1 / 4)) in *. clearbody x y u v.
  assert (A : sqrt (500 * x * (500 * x) + 1000 * u * (1000 * u)) <= 1641).
  { rewrite <- (sqrt_square 1641) by lra. apply sqrt_le_1_alt. nra. }
  assert (B : 2828 <= sqrt (500 * y * (500 * y) + 2000 * v * (2000 * v))).
  { rewrite <- (sqrt_square 2828) by lra. apply sqrt_le_1_alt. nra. }
  lra.
Qed.
