(** How the sag and the tensions at the ends change with the horizontal tension, and the
    secant on a rising function, in exact arithmetic. *)
From Coq Require Import ZArith Bool List Reals Lra Lia.
From Verif Require Import Num NumFacts ModelBase ModelCatenary SpecCatenary ProofReal ProofVector HypFacts ProofCatenary
  SpecCatenary3 ProofCatenary3 ModelSolver SpecSolver ProofSolver ProofSolverReal.
Import ListNotations.
Open Scope R_scope.

(** ** The sag of a catenary: the drop from the chord where the curve is parallel to it *)
Section Drop.
Variable be : R.
Definition drop (z : R) : R := cosh z - cosh be - sinh be * (z - be).

Lemma drop_tangent : forall z y, drop z + (sinh z - sinh be) * (y - z) <= drop y.
Proof. intros z y. unfold drop. assert (T := cosh_tangent z y). nra. Qed.
Lemma drop_tangent_lt : forall z y, z <> y -> drop z + (sinh z - sinh be) * (y - z) < drop y.
Proof. intros z y H. unfold drop. assert (T := cosh_tangent_lt z y H). nra. Qed.
Lemma drop_right : forall x y, be <= x -> x < y -> drop x < drop y.
Proof. intros x y H L. assert (T := drop_tangent_lt x y ltac:(lra)). assert (Q := sinh_le _ _ H). nra. Qed.
Lemma drop_left : forall x y, x <= be -> y < x -> drop x < drop y.
Proof. intros x y H L. assert (T := drop_tangent_lt x y ltac:(lra)). assert (Q := sinh_le _ _ H). nra. Qed.
Lemma drop_between : forall x y, x < y -> drop x = drop y -> x < be < y.
Proof.
  intros x y L E. split; apply Rnot_le_lt; intros H.
  - assert (A := drop_right x y H L). lra.
  - assert (A := drop_left y x H L). lra.
Qed.
Lemma drop_be : drop be = 0. Proof. unfold drop. ring. Qed.

(** Half way down the drop is less than half. *)
Lemma drop_convex : forall z r, z <> be -> 0 < r < 1 -> drop (be + r * (z - be)) < r * drop z.
Proof.
  intros z r N H. set (x := be + r * (z - be)).
  assert (A := drop_tangent_lt x z). assert (B := drop_tangent x be). rewrite drop_be in B.
  assert (NX : x <> z). { unfold x. intros Q. assert (E : (1 - r) * (z - be) = 0) by lra. apply Rmult_integral in E. lra. }
  specialize (A NX). set (s := sinh x - sinh be) in *.
  replace (z - x) with ((1 - r) * (z - be)) in A by (unfold x; ring).
  replace (be - x) with (- (r * (z - be))) in B by (unfold x; ring).
  nra.
Qed.

Lemma drop_step : forall z1 z2 y1 y2 k k', z1 < z2 -> y1 < y2 -> drop z1 = drop z2 -> drop y1 = drop y2 ->
  0 < k -> k < k' -> k * (z2 - z1) = k' * (y2 - y1) ->
  0 < k * drop z1 - k' * drop y1 <= (k' - k) * ((z2 - z1) * (sinh z2 - sinh z1) / 4).
Proof.
  intros z1 z2 y1 y2 k k' Lz Ly Ez Ey Hk Hkk E.
  assert (Bz := drop_between _ _ Lz Ez). assert (By := drop_between _ _ Ly Ey).
  split.
  - set (r := k / k').
    assert (Hr : 0 < r < 1).
    { unfold r. split; [apply Rdiv_lt_0_compat; lra|]. apply Rmult_lt_reg_r with k'; [lra|]. unfold Rdiv. rewrite Rmult_assoc, Rinv_l by lra. lra. }
    assert (RK : k = r * k') by (unfold r; field; lra).
    assert (W : r * (z2 - z1) = y2 - y1). { apply Rmult_eq_reg_l with k'; [|lra]. rewrite <- E, RK. ring. }
    assert (A1 := drop_convex z1 r ltac:(lra) Hr). assert (A2 := drop_convex z2 r ltac:(lra) Hr).
    rewrite <- Ez in A2.
    assert (D : drop y1 < r * drop z1).
    { apply Rnot_le_lt. intros Q.
      assert (P2 : be + r * (z2 - be) < y2).
      { apply Rnot_le_lt. intros C. destruct C as [C|C].
        - assert (X := drop_right y2 _ ltac:(lra) C). lra.
        - rewrite <- C in A2. lra. }
      assert (P1 : y1 < be + r * (z1 - be)).
      { apply Rnot_le_lt. intros C. destruct C as [C|C].
        - assert (X := drop_left y1 _ ltac:(lra) C). lra.
        - rewrite C in A1. lra. }
      lra. }
    rewrite RK. assert (k' * drop y1 < k' * (r * drop z1)) by (apply Rmult_lt_compat_l; lra). lra.
  - set (p := sinh z2 - sinh be). set (q := sinh be - sinh z1).
    assert (Hp : 0 < p) by (unfold p; assert (X := sinh_lt _ _ (proj2 Bz)); lra).
    assert (Hq : 0 < q) by (unfold q; assert (X := sinh_lt _ _ (proj1 Bz)); lra).
    assert (T2 := drop_tangent z2 y2). assert (T1 := drop_tangent z1 y1). fold p in T2.
    replace (sinh z1 - sinh be) with (- q) in T1 by (unfold q; ring).
    replace (sinh z2 - sinh z1) with (p + q) by (unfold p, q; ring).
    set (s := drop z1) in *. set (s' := drop y1) in *. rewrite <- Ez in T2. rewrite <- Ey in T2.
    assert (U1 : p * (s - s') <= p * (q * (y1 - z1))) by (apply Rmult_le_compat_l; lra).
    assert (U2 : q * (s - s') <= q * (p * (z2 - y2))) by (apply Rmult_le_compat_l; lra).
    set (d := (z2 - z1) - (y2 - y1)).
    assert (Hd : 0 < d). { unfold d. assert (0 < z2 - z1) by lra. apply Rmult_lt_reg_l with k'; [lra|]. rewrite Rmult_0_r. nra. }
    assert (U : (p + q) * (s - s') <= p * q * d) by (unfold d; lra).
    assert (V : 4 * (s - s') <= (p + q) * d).
    { apply Rmult_le_reg_l with (p + q); [lra|].
      apply Rle_trans with (4 * (p * q * d)); [lra|].
      replace ((p + q) * ((p + q) * d)) with ((p + q) * (p + q) * d) by ring.
      replace (4 * (p * q * d)) with (4 * p * q * d) by ring. apply Rmult_le_compat_r; [lra|].
      assert (0 <= (p - q) * (p - q)) by apply Rle_0_sqr. lra. }
    assert (KD : k' * d = (k' - k) * (z2 - z1)) by (unfold d; lra).
    assert (Z : 0 <= s). { unfold s. assert (X := drop_left be z1 (Rle_refl _) (proj1 Bz)). rewrite drop_be in X. lra. }
    assert (X : k' * (4 * (s - s')) <= k' * ((p + q) * d)) by (apply Rmult_le_compat_l; lra).
    replace (k' * ((p + q) * d)) with ((p + q) * (k' * d)) in X by ring. rewrite KD in X.
    assert (0 <= (k' - k) * s) by (apply Rmult_le_pos; lra).
    lra.
Qed.
End Drop.

(** sinh z / z grows. *)
Lemma cosh_up : forall x y, 0 <= x <= y -> cosh x <= cosh y.
Proof.
  intros x y H. apply cosh_le_of_sinh. assert (0 <= sinh x) by (rewrite <- sinh_0; apply sinh_le; lra).
  assert (sinh x <= sinh y) by (apply sinh_le; lra). rewrite !Rabs_pos_eq by lra. assumption.
Qed.
Lemma shc_up : forall x y, 0 < x < y -> y * sinh x <= x * sinh y.
Proof.
  intros x y H.
  destruct (MVT_cor2 sinh cosh 0 x (proj1 H)) as (c & E & C); [intros; apply derivable_pt_lim_sinh|].
  destruct (MVT_cor2 sinh cosh x y (proj2 H)) as (e & E2 & C2); [intros; apply derivable_pt_lim_sinh|].
  rewrite sinh_0 in E. assert (Q := cosh_up c e ltac:(lra)).
  replace (sinh x) with (x * cosh c) by lra. replace (sinh y) with (x * cosh c + (y - x) * cosh e) by lra.
  assert (x * (y - x) * cosh c <= x * (y - x) * cosh e) by (apply Rmult_le_compat_l; [apply Rmult_le_pos; lra|exact Q]).
  lra.
Qed.
Lemma sinh_one : sinh 1 <= 4 / 3.
Proof.
  unfold sinh. rewrite exp_Ropp. assert (P := exp_le_3). assert (Q := exp_pos 1).
  assert (/ 3 <= / exp 1) by (apply Rinv_le_contravar; lra). lra.
Qed.
Lemma shc_small : forall z, 0 < z <= 1 -> sinh z <= 4 / 3 * z.
Proof.
  intros z H. assert (S1 := sinh_one). destruct (Req_dec z 1) as [->|N]; [lra|].
  assert (Q := shc_up z 1 ltac:(lra)). rewrite Rmult_1_l in Q. nra.
Qed.

(** ** Tangents *)
Lemma dot_le : forall x1 y1 x2 y2, x1 * x2 + y1 * y2 <= sqrt (x1 * x1 + y1 * y1) * sqrt (x2 * x2 + y2 * y2).
Proof.
  intros x1 y1 x2 y2. rewrite <- sqrt_mult by nra. apply Rle_trans with (Rabs (x1 * x2 + y1 * y2)); [apply Rle_abs|].
  rewrite <- sqrt_Rsqr_abs. apply sqrt_le_1_alt. unfold Rsqr. assert (0 <= (x1 * y2 - x2 * y1) * (x1 * y2 - x2 * y1)) by apply Rle_0_sqr. lra.
Qed.

Lemma root_tangent : forall x1 y1 x2 y2 dx dy t, 0 <= x1 -> 0 < y1 -> x1 + dx * t <= x2 -> y1 + dy * t <= y2 ->
  let g1 := sqrt (x1 * x1 + y1 * y1) in
  0 < g1 /\ g1 + (x1 * dx + y1 * dy) / g1 * t <= sqrt (x2 * x2 + y2 * y2).
Proof.
  intros x1 y1 x2 y2 dx dy t H1 H2 HX HY g1. assert (Pg : 0 < g1) by (apply sqrt_lt_R0; nra). split; [exact Pg|].
  assert (D := dot_le x1 y1 x2 y2). fold g1 in D. set (g2 := sqrt (x2 * x2 + y2 * y2)) in *.
  assert (G : g1 * g1 = x1 * x1 + y1 * y1) by (apply sqrt_sqrt; nra).
  apply Rmult_le_reg_l with g1; [exact Pg|]. 
  replace (g1 * (g1 + (x1 * dx + y1 * dy) / g1 * t)) with (g1 * g1 + (x1 * dx + y1 * dy) * t) by (field; lra).
  rewrite G. assert (x1 * (x1 + dx * t) <= x1 * x2) by (apply Rmult_le_compat_l; lra).
  assert (y1 * (y1 + dy * t) <= y1 * y2) by (apply Rmult_le_compat_l; lra). lra.
Qed.

Lemma root_rate : forall x1 y1 dx dy mx my m, 0 <= x1 -> 0 < y1 -> 0 <= dx <= mx -> 0 < dy <= my -> 0 < m -> m * m = mx * mx + my * my ->
  let g1 := sqrt (x1 * x1 + y1 * y1) in 0 < (x1 * dx + y1 * dy) / g1 <= m.
Proof.
  intros x1 y1 dx dy mx my m H1 H2 HX HY HM HE g1. assert (Pg : 0 < g1) by (apply sqrt_lt_R0; nra).
  assert (D := dot_le x1 y1 mx my). fold g1 in D. rewrite <- HE, sqrt_square in D by lra.
  assert (x1 * dx <= x1 * mx) by (apply Rmult_le_compat_l; lra). assert (y1 * dy <= y1 * my) by (apply Rmult_le_compat_l; lra).
  assert (0 <= x1 * dx) by (apply Rmult_le_pos; lra). assert (0 < y1 * dy) by (apply Rmult_lt_0_compat; lra).
  split; [apply Rdiv_lt_0_compat; lra|]. apply Rmult_le_reg_r with g1; [exact Pg|]. unfold Rdiv. rewrite Rmult_assoc, Rinv_l by lra. lra.
Qed.

(** The two parts of the tension at an end. *)
Definition weighty (e k : R) : R := k * cosh (e / k).
Definition leaning (e k : R) : R := cosh (e / k) / sinh (e / k).
Definition weighty' (e k : R) : R := cosh (e / k) - e / k * sinh (e / k).
Definition leaning' (e k : R) : R := e / (k * k) / (sinh (e / k) * sinh (e / k)).

Lemma weighty_tangent : forall e x z, 0 < x -> 0 < z -> weighty e z + weighty' e z * (x - z) <= weighty e x.
Proof.
  intros e x z Hx Hz. unfold weighty, weighty'. assert (T := cosh_tangent (e / z) (e / x)).
  apply Rmult_le_compat_l with (r := x) in T; [|lra].
  replace (x * (cosh (e / z) + (e / x - e / z) * sinh (e / z))) with
    (z * cosh (e / z) + (cosh (e / z) - e / z * sinh (e / z)) * (x - z)) in T by (field; lra).
  exact T.
Qed.
Lemma weighty_rate : forall e k, 0 < e -> e <= k -> 0 < weighty' e k <= 1.
Proof.
  intros e k He Hk. unfold weighty'. set (v := e / k).
  assert (V : 0 < v <= 1).
  { unfold v. split; [apply Rdiv_lt_0_compat; lra|]. apply Rmult_le_reg_r with k; [lra|]. unfold Rdiv. rewrite Rmult_assoc, Rinv_l by lra. lra. }
  assert (P := sinh_pos v (proj1 V)). assert (Q := cosh_sinh_sq v). assert (C := cosh_pos v).
  assert (sinh v < cosh v) by nra. split; [nra|].
  assert (T := cosh_tangent v 0). rewrite cosh_0 in T. lra.
Qed.
Lemma leaning_deriv : forall e k, 0 < e -> 0 < k -> derivable_pt_lim (leaning e) k (leaning' e k).
Proof.
  intros e k He Hk. unfold leaning, leaning'.
  assert (D : derivable_pt_lim (fun k => e / k) k (- (e / (k * k)))).
  { replace (- (e / (k * k))) with ((0 * k - 1 * e) / Rsqr k) by (unfold Rsqr; field; lra).
    apply (derivable_pt_lim_div (fun _ => e) id); [apply derivable_pt_lim_const|apply derivable_pt_lim_id|unfold id; lra]. }
  assert (P := sinh_pos (e / k) ltac:(apply Rdiv_lt_0_compat; lra)). assert (Q := cosh_sinh_sq (e / k)).
  replace (e / (k * k) / (sinh (e / k) * sinh (e / k))) with
    (((sinh (e / k) * - (e / (k * k))) * sinh (e / k) - (cosh (e / k) * - (e / (k * k))) * cosh (e / k)) / Rsqr (sinh (e / k))).
  2: { unfold Rsqr. transitivity (e / (k * k) * (cosh (e / k) * cosh (e / k) - sinh (e / k) * sinh (e / k)) / (sinh (e / k) * sinh (e / k))).
       - field. lra.
       - rewrite Q. field. lra. }
  apply (derivable_pt_lim_div (fun k => cosh (e / k)) (fun k => sinh (e / k))).
  - apply (derivable_pt_lim_comp (fun k => e / k) cosh); [exact D|apply derivable_pt_lim_cosh].
  - apply (derivable_pt_lim_comp (fun k => e / k) sinh); [exact D|apply derivable_pt_lim_sinh].
  - lra.
Qed.
Lemma leaning_square : forall e k, 0 < e -> 0 < k -> leaning' e k = (e / k / sinh (e / k)) * (e / k / sinh (e / k)) / e.
Proof.
  intros e k He Hk. unfold leaning'. assert (P := sinh_pos (e / k) ltac:(apply Rdiv_lt_0_compat; lra)). field. lra.
Qed.
Lemma leaning_up : forall e x y, 0 < e -> 0 < x <= y -> leaning' e x <= leaning' e y.
Proof.
  intros e x y He H. rewrite !leaning_square by lra. apply Rmult_le_compat_r; [left; apply Rinv_0_lt_compat; lra|].
  assert (Vx : 0 < e / x) by (apply Rdiv_lt_0_compat; lra). assert (Vy : 0 < e / y) by (apply Rdiv_lt_0_compat; lra).
  assert (L : e / y <= e / x) by (apply Rmult_le_compat_l; [lra|]; apply Rinv_le_contravar; lra).
  set (u := e / x) in *. set (v := e / y) in *. assert (Pu := sinh_pos u Vx). assert (Pv := sinh_pos v Vy).
  assert (Q : v * sinh u >= u * sinh v).
  { destruct (Req_dec v u) as [->|N]; [lra|]. assert (Q := shc_up v u ltac:(lra)). lra. }
  assert (U : 0 < u / sinh u) by (apply Rdiv_lt_0_compat; lra).
  assert (V : u / sinh u <= v / sinh v).
  { apply Rmult_le_reg_r with (sinh u * sinh v); [nra|].
    replace (u / sinh u * (sinh u * sinh v)) with (u * sinh v) by (field; lra).
    replace (v / sinh v * (sinh u * sinh v)) with (v * sinh u) by (field; lra). lra. }
  apply Rmult_le_compat; lra.
Qed.
Lemma leaning_tangent : forall e x z, 0 < e -> 0 < x -> 0 < z -> leaning e z + leaning' e z * (x - z) <= leaning e x.
Proof.
  intros e x z He Hx Hz. destruct (Rtotal_order x z) as [L|[->|L]].
  - destruct (MVT_cor2 (leaning e) (leaning' e) x z L) as (c & E & C); [intros c Hc; apply leaning_deriv; lra|].
    assert (Q := leaning_up e c z He ltac:(lra)). nra.
  - lra.
  - destruct (MVT_cor2 (leaning e) (leaning' e) z x L) as (c & E & C); [intros c Hc; apply leaning_deriv; lra|].
    assert (Q := leaning_up e z c He ltac:(lra)). nra.
Qed.
Lemma leaning_rate : forall e k, 0 < e -> 0 < k -> 0 < leaning' e k <= / e.
Proof.
  intros e k He Hk. rewrite leaning_square by lra. assert (V : 0 < e / k) by (apply Rdiv_lt_0_compat; lra).
  set (v := e / k) in *. assert (P := sinh_gt v V).
  assert (U : 0 < v / sinh v) by (apply Rdiv_lt_0_compat; lra).
  assert (U1 : v / sinh v <= 1). { apply Rmult_le_reg_r with (sinh v); [lra|]. unfold Rdiv. rewrite Rmult_assoc, Rinv_l by lra. lra. }
  assert (I : 0 < / e) by (apply Rinv_0_lt_compat; lra). set (q := v / sinh v) in *. unfold Rdiv.
  assert (0 < q * q <= 1) by nra. split; [apply Rmult_lt_0_compat; lra|]. nra.
Qed.
Lemma leaning_pos : forall e k, 0 < e -> 0 < k -> 0 < leaning e k.
Proof.
  intros e k He Hk. unfold leaning. apply Rdiv_lt_0_compat; [apply cosh_pos|apply sinh_pos, Rdiv_lt_0_compat; lra].
Qed.

(** The mean of the tensions at the ends, over the weight. *)
Definition endmean (a b k : R) : R :=
  sqrt ((Rabs b / 2 * leaning (a / 2) k) * (Rabs b / 2 * leaning (a / 2) k) + weighty (a / 2) k * weighty (a / 2) k).

Lemma endmean_tangent : forall a b m x0, 0 < a -> 0 < m -> m * m = 1 + (b / a) * (b / a) -> a / 2 <= x0 ->
  exists d, (forall z, x0 <= z -> 0 < d z <= m) /\
    (forall x z, x0 <= x -> x0 <= z -> endmean a b z + d z * (x - z) <= endmean a b x).
Proof.
  intros a b m x0 Ha Hm HE H0. set (e := a / 2) in *. assert (He : 0 < e) by (unfold e; lra).
  assert (Hb : 0 <= Rabs b / 2) by (assert (P := Rabs_pos b); lra).
  exists (fun z => ((Rabs b / 2 * leaning e z) * (Rabs b / 2 * leaning' e z) + weighty e z * weighty' e z) / endmean a b z).
  split.
  - intros z Hz. assert (Lp := leaning_pos e z He ltac:(lra)). assert (Lr := leaning_rate e z He ltac:(lra)).
    assert (Wr := weighty_rate e z He ltac:(lra)).
    assert (Wp : 0 < weighty e z) by (unfold weighty; apply Rmult_lt_0_compat; [lra|apply cosh_pos]).
    apply (root_rate _ _ _ _ (Rabs b / 2 * / e) 1 m); try assumption.
    + apply Rmult_le_pos; lra.
    + split; [apply Rmult_le_pos; lra|apply Rmult_le_compat_l; lra].
    + rewrite HE. unfold e. assert (S := Rabs_both b).
      assert (BB : Rabs b * Rabs b = b * b) by (rewrite <- Rabs_mult; apply Rabs_pos_eq; nra).
      replace (Rabs b / 2 * / (a / 2) * (Rabs b / 2 * / (a / 2))) with (Rabs b * Rabs b / (a * a)) by (field; lra).
      rewrite BB. field. lra.
  - intros x z Hx Hz.
    assert (Lp := leaning_pos e z He ltac:(lra)).
    assert (Wp : 0 < weighty e z) by (unfold weighty; apply Rmult_lt_0_compat; [lra|apply cosh_pos]).
    apply root_tangent; [apply Rmult_le_pos; lra|exact Wp| |apply weighty_tangent; lra].
    assert (T := leaning_tangent e x z He ltac:(lra) ltac:(lra)).
    apply Rmult_le_compat_l with (r := Rabs b / 2) in T; [|lra]. fold e. lra.
Qed.

(** ** The secant on a rising convex function *)
Section Rising.
Variable f : R -> R.
Variables x0 m t : R.
Variable d : R -> R.
Hypothesis rate : forall z, x0 <= z -> 0 < d z <= m.
Hypothesis above : forall x z, x0 <= x -> x0 <= z -> f z + d z * (x - z) <= f x.

Lemma rise : forall x y, x0 <= x -> x < y -> 0 < f y - f x <= m * (y - x).
Proof using rate above.
  intros x y Hx Hy. assert (A := above y x ltac:(lra) Hx). assert (B := above x y Hx ltac:(lra)).
  assert (C := rate x Hx). assert (D := rate y ltac:(lra)). split; nra.
Qed.

Definition rising_inv (l r : Point2d RNum) (cur : R) : Prop :=
  (p2y l : R) = f (p2x l) /\ (p2y r : R) = f (p2x r) /\ x0 <= p2x l /\ p2x l <= p2x r /\ f (p2x l) <= t /\
  (cur = @ferr RNum \/ 1 / 100 < p2x r - p2x l \/ (x0 <= cur /\ Rabs (f cur - t) <= m * (p2x r - p2x l))).

Lemma rising_keep : forall l r cur l' r', rising_inv l r cur -> 1 / 100 < Rabs (p2x l - p2x r) -> moved f t l r l' r' ->
  rising_inv l' r' (next_x f t l r).
Proof using rate above.
  intros l r cur l' r' (Hl & Hr & H0 & HLR & HT & _) D M.
  rewrite Rabs_minus_sym, Rabs_pos_eq in D by lra.
  assert (LT : p2x l < p2x r) by lra. assert (RI := rise _ _ H0 LT).
  set (s := f (p2x r) - f (p2x l)) in *.
  assert (X : next_x f t l r - p2x l = (t - f (p2x l)) * ((p2x r - p2x l) / s)).
  { unfold next_x. rewrite Hl, Hr. unfold s in *. field. split; lra. }
  assert (Q : 0 < (p2x r - p2x l) / s) by (apply Rdiv_lt_0_compat; lra).
  set (q := (p2x r - p2x l) / s) in *.
  assert (QD : q * s = p2x r - p2x l) by (unfold q; field; lra).
  set (x := next_x f t l r) in *.
  assert (QM : 1 <= m * q). { apply Rmult_le_reg_r with s; [lra|]. rewrite Rmult_assoc, QD. lra. }
  assert (XL : p2x l <= x) by nra.
  assert (TL : t - f (p2x l) <= m * (x - p2x l)) by (rewrite X; nra).
  destruct M as [y H|y H H1|y H H1|y H H1|y H]; try (change y with x in *; clear y); cbn [p2x p2y] in *.
  - exfalso. lra.
  - unfold rising_inv. cbn [p2x p2y]. repeat split; try assumption; try lra. right. right. split; [lra|].
    assert (L := rise _ _ H0 (proj1 H)). apply Rabs_le. lra.
  - exfalso.
    assert (A := above (p2x l) x H0 ltac:(lra)). assert (B := above (p2x r) x ltac:(lra) ltac:(lra)).
    assert (C1 := Rmult_le_compat_l (p2x r - x) _ _ ltac:(lra) A).
    assert (C2 := Rmult_le_compat_l (x - p2x l) _ _ ltac:(lra) B).
    assert (E : (t - f (p2x l)) * (p2x r - p2x l) = s * (x - p2x l)) by (rewrite <- QD, X; ring).
    assert (F : (p2x r - p2x l) * f x <= (p2x r - p2x l) * t) by (unfold s in E; lra).
    apply Rmult_le_reg_l in F; lra.
  - unfold rising_inv. cbn [p2x p2y].
    assert (L := rise (p2x r) x ltac:(lra) H1).
    assert (XR : x - p2x r = (t - f (p2x r)) * q).
    { replace (x - p2x r) with ((x - p2x l) - q * s) by (rewrite QD; ring). rewrite X. unfold s. ring. }
    assert (T : 0 < t - f (p2x r)) by nra.
    assert (T2 : t - f (p2x r) <= m * (x - p2x r)) by (rewrite XR; nra).
    repeat split; try assumption; try lra. right. right. split; [lra|]. apply Rabs_le. lra.
  - unfold rising_inv. repeat split; try assumption. right. left. exact D.
Qed.

Lemma rising_close : forall u c0 (l r : Point2d RNum), fits u c0 f -> c3_current c0 ->
  (p2y l : R) = f (p2x l) -> (p2y r : R) = f (p2x r) -> x0 <= p2x l -> p2x l <= p2x r -> f (p2x l) <= t ->
  let res := solve_between u t l r c0 in
  fst res = true ->
  c3_tension_horizontal (snd res) = @ferr RNum \/
  (x0 <= c3_tension_horizontal (snd res) /\ Rabs (f (c3_tension_horizontal (snd res)) - t) <= m / 100).
Proof using rate above.
  intros u c0 l r F I Hl Hr H0 HLR HT res H. unfold res, solve_between in *. clear res.
  set (s0 := mkLoopState l r Point2d_default 0 c0) in *.
  destruct (loop_inv u c0 f t rising_inv F rising_keep) with (fuel := Z.to_nat 102) (s := s0) as (A & _ & B).
  - unfold s0. cbn [lo_catenary]. exact (twin_refl c0 I).
  - unfold s0, rising_inv. cbn [lo_left lo_right lo_current]. repeat split; try assumption. left. reflexivity.
  - unfold s0. cbn [lo_iter]. rewrite Z2Nat.id; lia.
  - destruct (lo_iter _ <? 100)%Z eqn:E; [|discriminate]. apply Z.ltb_lt in E. specialize (B E).
    cbn [snd]. change (c3_tension_horizontal (c3_set_tension ?c ?h)) with h.
    destruct A as (_ & _ & A0 & A1 & _ & A). rewrite Rabs_minus_sym, Rabs_pos_eq in B by lra.
    destruct A as [A|[A|A]]; [left; exact A|lra|right].
    assert (M0 : 0 < m) by (assert (G := rate _ A0); lra).
    split; [apply A|]. destruct A as (_ & A). nra.
Qed.
End Rising.

(** ** A catenary in its plane *)
Section Plane.
Variable c : Catenary2d RNum.
Hypothesis cur : c2_current c.
Let h : R := c2_tension c.
Let w : R := c2_weight c.
Let a : R := v2x (c2_spacing c).
Let b : R := v2y (c2_spacing c).
Hypothesis Hh : 0 < h.
Hypothesis Hw : 0 < w.
Hypothesis Ha : 0 < a.

Lemma plane_ends : drop (arcsinh (b / a)) (cu c - cz c) = drop (arcsinh (b / a)) (cu c + cz c).
Proof using Ha Hh Hw.
  unfold drop. rewrite sinh_arcsinh. assert (E := slope_ends c Hh Hw Ha). assert (P := cz_pos c Hh Hw Ha).
  assert (Q : b / a * (2 * cz c) = cosh (cu c + cz c) - cosh (cu c - cz c)).
  { unfold a, b. rewrite E. field. lra. }
  lra.
Qed.
Lemma plane_sag : (c2_Sag c : R) = ck c * drop (arcsinh (b / a)) (cu c - cz c).
Proof using Ha Hh Hw cur.
  assert (Q := sagpoint_sinh c cur Hh Hw Ha). rewrite (sag_R c cur), (sagat_R c cur Hh Hw).
  assert (E : ct c (c2_PositionFractionSagPoint c) = arcsinh (b / a)) by (rewrite <- (arcsinh_sinh (ct c _)), Q; reflexivity).
  rewrite E. unfold sag_t, drop. rewrite sinh_arcsinh. fold a b. ring.
Qed.
Lemma plane_span : ck c * ((cu c + cz c) - (cu c - cz c)) = a.
Proof using Ha Hh Hw. unfold a. rewrite (a_kz c Hh Hw). ring. Qed.

(** At the tensions that are not too low. *)
Lemma plane_rate : sqrt (a * a + b * b) / 2 <= ck c ->
  ((cu c + cz c) - (cu c - cz c)) * (sinh (cu c + cz c) - sinh (cu c - cz c)) / 4 <= 4 / 3.
Proof using Ha Hh Hw cur.
  intros H. set (s := sqrt (a * a + b * b)) in *. set (k := ck c) in *.
  assert (Ps : 0 < s) by (apply sqrt_lt_R0; nra). assert (Es : s * s = a * a + b * b) by (apply sqrt_sqrt; nra).
  assert (As : a <= s) by nra.
  assert (Pz := cz_pos c Hh Hw Ha). assert (Kz : a = 2 * k * cz c) by exact (a_kz c Hh Hw).
  assert (Z1 : cz c <= 1) by nra.
  assert (L := E_length c Hh Hw). assert (LI := length_identity c cur Hh Hw Ha).
  unfold c2_Length in LI. rewrite (ens c cur) in LI.
  replace (v2x (c2_spacing c) / (2 * ck c)) with (cz c) in LI by (unfold cz; field; assert (P := ck_pos c Hh Hw); lra).
  fold k in L, LI. set (l := c2_length (c2_Update c)) in *. fold b in LI.
  assert (Pl : 0 < l) by exact (E_length_pos c Hh Hw Ha).
  change (F RNum) with R in *.
  assert (SZ := shc_small (cz c) (conj Pz Z1)). assert (PS := sinh_pos _ Pz).
  assert (G : 2 * k * sinh (cz c) <= 4 / 3 * a) by (rewrite Kz; nra).
  assert (G0 : 0 <= 2 * k * sinh (cz c)) by nra.
  set (g := 2 * k * sinh (cz c)) in *.
  assert (GG : g * g <= 4 / 3 * a * (4 / 3 * a)) by (apply Rmult_le_compat; lra).
  assert (Ll : l <= 4 / 3 * s).
  { apply Rsqr_incr_0_var; [|lra]. unfold Rsqr. assert (E : l * l = b * b + g * g) by exact LI. rewrite E. nra. }
  set (x := sinh (cu c + cz c) - sinh (cu c - cz c)) in *.
  replace ((cu c + cz c) - (cu c - cz c)) with (2 * cz c) by ring.
  assert (X : k * x = l) by (symmetry; exact L).
  assert (Px : x <= 8 / 3) by nra. assert (X0 : 0 <= x) by nra. nra.
Qed.

Lemma plane_endmean : ck c * (cosh (cu c) * cosh (cz c)) = endmean a b (ck c).
Proof using Ha Hh Hw.
  assert (Pk := ck_pos c Hh Hw). assert (Pz := cz_pos c Hh Hw Ha). assert (Pc := cosh_pos (cu c)). assert (Pc2 := cosh_pos (cz c)).
  assert (PS := sinh_pos _ Pz).
  unfold endmean. assert (B := b_kz c Hh Hw Ha). change (v2y (c2_spacing c)) with b in B.
  replace (a / 2 / ck c) with (cz c) by reflexivity. unfold leaning, weighty.
  replace (a / 2 / ck c) with (cz c) by reflexivity.
  assert (BB : Rabs b * Rabs b = b * b) by (rewrite <- Rabs_mult; apply Rabs_pos_eq; nra).
  replace (Rabs b / 2 * (cosh (cz c) / sinh (cz c)) * (Rabs b / 2 * (cosh (cz c) / sinh (cz c)))) with
    ((Rabs b * Rabs b) * (cosh (cz c) * cosh (cz c)) / (4 * (sinh (cz c) * sinh (cz c)))) by (field; lra).
  rewrite BB, B. symmetry.
  replace (2 * ck c * sinh (cu c) * sinh (cz c) * (2 * ck c * sinh (cu c) * sinh (cz c)) * (cosh (cz c) * cosh (cz c)) /
    (4 * (sinh (cz c) * sinh (cz c))) + ck c * cosh (cz c) * (ck c * cosh (cz c))) with
    ((ck c * cosh (cz c)) * (ck c * cosh (cz c)) * (1 + sinh (cu c) * sinh (cu c))) by (field; lra).
  assert (Q := cosh_sinh_sq (cu c)). replace (1 + sinh (cu c) * sinh (cu c)) with (cosh (cu c) * cosh (cu c)) by lra.
  replace (ck c * cosh (cz c) * (ck c * cosh (cz c)) * (cosh (cu c) * cosh (cu c))) with
    ((ck c * (cosh (cu c) * cosh (cz c))) * (ck c * (cosh (cu c) * cosh (cz c)))) by ring.
  apply sqrt_square. apply Rmult_le_pos; [lra|]. apply Rmult_le_pos; lra.
Qed.
Lemma plane_right : (c2_Tension c (1 : R) : R) = w * (endmean a b (ck c) + b / 2).
Proof using Ha Hh Hw cur.
  rewrite (tension_R c cur Hh Hw), ct_1, cosh_plus, <- plane_endmean.
  assert (B := b_kz c Hh Hw Ha). change (v2y (c2_spacing c)) with b in B. assert (K := h_kw c Hw).
  transitivity (ck c * w * (cosh (cu c) * cosh (cz c) + sinh (cu c) * sinh (cz c))); [unfold w; rewrite <- K; reflexivity|].
  replace (b / 2) with (ck c * sinh (cu c) * sinh (cz c)) by (rewrite B; field). ring.
Qed.
Lemma plane_left : (c2_Tension c (0 : R) : R) = w * (endmean a b (ck c) - b / 2).
Proof using Ha Hh Hw cur.
  rewrite (tension_R c cur Hh Hw), ct_0, cosh_minus, <- plane_endmean.
  assert (B := b_kz c Hh Hw Ha). change (v2y (c2_spacing c)) with b in B. assert (K := h_kw c Hw).
  transitivity (ck c * w * (cosh (cu c) * cosh (cz c) - sinh (cu c) * sinh (cz c))); [unfold w; rewrite <- K; reflexivity|].
  replace (b / 2) with (ck c * sinh (cu c) * sinh (cz c)) by (rewrite B; field). ring.
Qed.
End Plane.

Lemma plane_sag_falls : forall (c c' : Catenary2d RNum), c2_current c -> c2_current c' ->
  c2_spacing c = c2_spacing c' -> c2_weight c = c2_weight c' -> 0 < c2_weight c -> 0 < v2x (c2_spacing c) ->
  0 < c2_tension c -> c2_tension c < c2_tension c' ->
  let a : R := v2x (c2_spacing c) in let b : R := v2y (c2_spacing c) in
  sqrt (a * a + b * b) / 2 * c2_weight c <= c2_tension c ->
  0 < c2_Sag c - c2_Sag c' <= 4 / 3 / c2_weight c * (c2_tension c' - c2_tension c).
Proof.
  intros c c' I I' ES EW Hw Ha Hh Hhh a b H.
  assert (Hh' : 0 < c2_tension c') by (change (F RNum) with R in *; lra).
  assert (Hw' : 0 < c2_weight c') by (rewrite <- EW; exact Hw).
  assert (Ha' : 0 < v2x (c2_spacing c')) by (rewrite <- ES; exact Ha).
  assert (Pk := ck_pos c Hh Hw). assert (Pz := cz_pos c Hh Hw Ha). assert (Pz' := cz_pos c' Hh' Hw' Ha').
  assert (KK : ck c < ck c').
  { unfold ck. rewrite <- EW. apply Rmult_lt_compat_r; [apply Rinv_0_lt_compat; exact Hw|exact Hhh]. }
  assert (SP := plane_span c Hh Hw Ha). assert (SP' := plane_span c' Hh' Hw' Ha'). rewrite <- ES in SP'.
  assert (EN := plane_ends c Hh Hw Ha). assert (EN' := plane_ends c' Hh' Hw' Ha'). rewrite <- ES in EN'.
  assert (SG := plane_sag c I Hh Hw Ha). assert (SG' := plane_sag c' I' Hh' Hw' Ha'). rewrite <- ES in SG'.
  assert (ST := drop_step (arcsinh (b / a)) (cu c - cz c) (cu c + cz c) (cu c' - cz c') (cu c' + cz c') (ck c) (ck c')
    ltac:(lra) ltac:(lra) EN EN' Pk KK ltac:(rewrite SP, SP'; reflexivity)).
  fold a b in SG, SG'. rewrite <- SG, <- SG' in ST. destruct ST as (S1 & S2). split; [exact S1|].
  assert (K1 : sqrt (a * a + b * b) / 2 <= ck c).
  { unfold ck. apply Rmult_le_reg_r with (c2_weight c); [exact Hw|]. unfold Rdiv at 2. rewrite Rmult_assoc, Rinv_l, Rmult_1_r; [exact H|].
    change (F RNum) with R in *. lra. }
  assert (RT := plane_rate c I Hh Hw Ha K1).
  eapply Rle_trans; [exact S2|].
  replace (4 / 3 / c2_weight c * (c2_tension c' - c2_tension c)) with ((ck c' - ck c) * (4 / 3)).
  - apply Rmult_le_compat_l; [lra|exact RT].
  - unfold ck. rewrite <- EW. change (F RNum) with R in *. field. lra.
Qed.
