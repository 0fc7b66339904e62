(** Hyperbolic functions over the reals. *)
From Coq Require Import Reals Lra Psatz.
Open Scope R_scope.

Lemma exp_both : forall x, exp x * exp (- x) = 1.
Proof. intros x. rewrite <- exp_plus, Rplus_opp_r. apply exp_0. Qed.

Lemma cosh_sinh_sq : forall x, cosh x * cosh x - sinh x * sinh x = 1.
Proof. intros x. unfold cosh, sinh. generalize (exp_both x). intros E. nra. Qed.

Lemma cosh_ge_1 : forall x, 1 <= cosh x.
Proof.
  intros x. unfold cosh. generalize (exp_both x) (exp_pos x) (exp_pos (- x)). intros E P Q.
  assert (0 <= (exp x - exp (- x)) ^ 2) by apply pow2_ge_0. nra.
Qed.

Lemma cosh_pos : forall x, 0 < cosh x.
Proof. intros x. generalize (cosh_ge_1 x). lra. Qed.

Lemma sinh_plus : forall x y, sinh (x + y) = sinh x * cosh y + cosh x * sinh y.
Proof. intros x y. unfold sinh, cosh. rewrite Ropp_plus_distr, !exp_plus. field. Qed.

Lemma cosh_plus : forall x y, cosh (x + y) = cosh x * cosh y + sinh x * sinh y.
Proof. intros x y. unfold sinh, cosh. rewrite Ropp_plus_distr, !exp_plus. field. Qed.

Lemma sinh_neg : forall x, sinh (- x) = - sinh x.
Proof. intros x. unfold sinh. rewrite Ropp_involutive. field. Qed.

Lemma cosh_neg : forall x, cosh (- x) = cosh x.
Proof. intros x. unfold cosh. rewrite Ropp_involutive. field. Qed.

Lemma sinh_minus : forall x y, sinh (x - y) = sinh x * cosh y - cosh x * sinh y.
Proof. intros x y. unfold Rminus at 1. rewrite sinh_plus, sinh_neg, cosh_neg. ring. Qed.

Lemma cosh_minus : forall x y, cosh (x - y) = cosh x * cosh y - sinh x * sinh y.
Proof. intros x y. unfold Rminus at 1. rewrite cosh_plus, sinh_neg, cosh_neg. ring. Qed.

Lemma cosh_sqrt : forall x, cosh x = sqrt (1 + sinh x * sinh x).
Proof.
  intros x. generalize (cosh_sinh_sq x) (cosh_pos x). intros E P.
  rewrite <- (sqrt_square (cosh x)) by lra. f_equal. lra.
Qed.

Lemma sinh_le : forall x y, x <= y -> sinh x <= sinh y.
Proof. intros x y [H| ->]; [left; apply sinh_lt; assumption|right; reflexivity]. Qed.

Lemma sinh_lt_inv : forall x y, sinh x < sinh y -> x < y.
Proof.
  intros x y H. destruct (Rlt_le_dec x y) as [L|L]; [assumption|].
  apply sinh_le in L. lra.
Qed.

Lemma sinh_inj : forall x y, sinh x = sinh y -> x = y.
Proof. intros x y H. rewrite <- (arcsinh_sinh x), H. apply arcsinh_sinh. Qed.

Lemma sinh_pos : forall x, 0 < x -> 0 < sinh x.
Proof. intros x H. rewrite <- sinh_0. apply sinh_lt. assumption. Qed.

(** sinh z > z for positive z. *)
Lemma sinh_gt : forall z, 0 < z -> z < sinh z.
Proof.
  intros z Hz.
  assert (D : forall c, 0 <= c <= z -> derivable_pt_lim (fun x => sinh x - x) c (cosh c - 1)).
  { intros c _. apply (derivable_pt_lim_minus sinh id); [apply derivable_pt_lim_sinh|apply derivable_pt_lim_id]. }
  destruct (MVT_cor2 (fun x => sinh x - x) (fun x => cosh x - 1) 0 z Hz D) as (c & E & B).
  rewrite sinh_0 in E. assert (1 < cosh c); [|nra].
  rewrite cosh_sqrt. rewrite <- sqrt_1 at 1. apply sqrt_lt_1; try lra.
  - generalize (Rle_0_sqr (sinh c)). unfold Rsqr. lra.
  - assert (0 < sinh c) by (apply sinh_pos; lra). nra.
Qed.

(** The tangent at x lies below. *)
Lemma cosh_tangent : forall x y, cosh x + (y - x) * sinh x <= cosh y.
Proof.
  intros x y. destruct (Rtotal_order x y) as [L|[->|L]].
  - destruct (MVT_cor2 cosh sinh x y L) as (c & E & B); [intros; apply derivable_pt_lim_cosh|].
    assert (sinh x <= sinh c) by (apply sinh_le; lra). nra.
  - lra.
  - destruct (MVT_cor2 cosh sinh y x L) as (c & E & B); [intros; apply derivable_pt_lim_cosh|].
    assert (sinh c <= sinh x) by (apply sinh_le; lra). nra.
Qed.

Lemma cosh_tangent_lt : forall x y, x <> y -> cosh x + (y - x) * sinh x < cosh y.
Proof.
  intros x y N. destruct (Rtotal_order x y) as [L|[->|L]].
  - destruct (MVT_cor2 cosh sinh x y L) as (c & E & B); [intros; apply derivable_pt_lim_cosh|].
    assert (sinh x < sinh c) by (apply sinh_lt; lra). nra.
  - lra.
  - destruct (MVT_cor2 cosh sinh y x L) as (c & E & B); [intros; apply derivable_pt_lim_cosh|].
    assert (sinh c < sinh x) by (apply sinh_lt; lra). nra.
Qed.

(** The chord lies above. *)
Lemma cosh_chord : forall x1 x2 x, x1 <= x <= x2 ->
  (x2 - x1) * cosh x <= (x2 - x) * cosh x1 + (x - x1) * cosh x2.
Proof.
  intros x1 x2 x [A B]. generalize (cosh_tangent x x1) (cosh_tangent x x2). intros T1 T2.
  apply Rle_trans with ((x2 - x) * (cosh x + (x1 - x) * sinh x) + (x - x1) * (cosh x + (x2 - x) * sinh x)).
  - right. ring.
  - apply Rplus_le_compat; apply Rmult_le_compat_l; lra.
Qed.

Lemma cosh_eq_1 : forall x, cosh x = 1 -> x = 0.
Proof.
  intros x H. generalize (cosh_sinh_sq x). rewrite H. intros E.
  apply sinh_inj. rewrite sinh_0. nra.
Qed.

Lemma cosh_le_of_sinh : forall x y, Rabs (sinh x) <= Rabs (sinh y) -> cosh x <= cosh y.
Proof.
  intros x y H. rewrite !cosh_sqrt. apply sqrt_le_1_alt. apply Rplus_le_compat_l.
  apply Rsqr_le_abs_1 in H. exact H.
Qed.

Lemma sinh_of_cosh_le : forall x y, cosh x <= cosh y -> Rabs (sinh x) <= Rabs (sinh y).
Proof.
  intros x y H. apply Rsqr_le_abs_0. unfold Rsqr. generalize (cosh_sinh_sq x) (cosh_sinh_sq y) (cosh_pos x). nra.
Qed.

Lemma cos_atan_sinh : forall x, cos (atan (sinh x)) = / cosh x.
Proof. intros x. rewrite cos_atan. unfold Rsqr. rewrite <- cosh_sqrt. unfold Rdiv. ring. Qed.

Lemma sin_atan_sinh : forall x, sin (atan (sinh x)) = sinh x / cosh x.
Proof. intros x. rewrite sin_atan. unfold Rsqr. rewrite <- cosh_sqrt. reflexivity. Qed.
