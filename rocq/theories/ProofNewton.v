(** Newton's method on increasing curves that bend in one direction. *)
From Coq Require Import ZArith List Lia Lra Reals.
From Verif Require Import Num ProofReal ModelPolynomial SpecPolynomial ProofPolynomial.
Import ListNotations.
Open Scope R_scope.

Section Concave.
Variables (f slope : R -> R) (lo hi y g : R).
Hypothesis Df : forall x, derivable_pt_lim f x (slope x).
Hypothesis Bend : forall x z, lo <= x -> x <= z -> z <= hi -> 0 < slope z <= slope x.
Hypothesis Glo : lo <= g.
Hypothesis Ghi : g <= hi.
Hypothesis Yhi : y <= f hi.
Hypothesis First : f g - slope g * (g - lo) <= y.

Let x := newton f slope y g.
Let ratio := slope hi / slope lo.

Lemma mvt : forall u v, u < v -> exists c, f v - f u = slope c * (v - u) /\ u < c < v.
Proof. intros u v H. apply (MVT_cor2 f slope u v H). intros c _. apply Df. Qed.

Lemma pos : forall z, lo <= z <= hi -> 0 < slope z.
Proof. intros z (H1 & H2). destruct (Bend z z H1 (Rle_refl z) H2). assumption. Qed.

Lemma range : lo <= hi.
Proof. lra. Qed.

Lemma ratio_pos : 0 < ratio <= 1.
Proof.
  pose proof range. destruct (Bend lo hi (Rle_refl _) H (Rle_refl _)) as (P & Q). unfold ratio. split.
  - apply Rdiv_lt_0_compat; lra.
  - apply (Rmult_le_reg_r (slope lo)); [lra|]. unfold Rdiv. rewrite Rmult_assoc, Rinv_l by lra. lra.
Qed.

(** The tangent lies above the curve. *)
Lemma tangent : forall u v, lo <= u <= hi -> lo <= v <= hi -> f v <= f u + slope u * (v - u).
Proof.
  intros u v (U1 & U2) (V1 & V2). destruct (Rtotal_order u v) as [L|[E|L]].
  - destruct (mvt u v L) as (c & M & C1 & C2). destruct (Bend u c) as (B1 & B2); try lra.
    assert (slope c * (v - u) <= slope u * (v - u)) by (apply Rmult_le_compat_r; lra). lra.
  - subst v. replace (u - u) with 0 by ring. lra.
  - destruct (mvt v u L) as (c & M & C1 & C2). destruct (Bend c u) as (B1 & B2); try lra.
    assert (slope u * (u - v) <= slope c * (u - v)) by (apply Rmult_le_compat_r; lra).
    replace (slope u * (v - u)) with (- (slope u * (u - v))) by ring. lra.
Qed.

Lemma rising : forall u v, lo <= u -> u <= v -> v <= hi -> f u <= f v.
Proof.
  intros u v U H V. destruct (Rle_lt_or_eq_dec _ _ H) as [L|E]; [|subst; lra].
  destruct (mvt u v L) as (c & M & C1 & C2). assert (P := pos c ltac:(lra)).
  assert (0 < slope c * (v - u)) by (apply Rmult_lt_0_compat; lra). lra.
Qed.

Lemma rising_inv : forall u v, lo <= u <= hi -> lo <= v <= hi -> f u < f v -> u < v.
Proof.
  intros u v U V H. destruct (Rlt_le_dec u v) as [L|L]; [exact L|]. pose proof (rising v u (proj1 V) L (proj2 U)). lra.
Qed.

Lemma step : forall k, lo <= x k <= hi -> x (S k) = x k + (y - f (x k)) / slope (x k).
Proof.
  intros k H. unfold x. cbn [newton]. fold (x k). pose proof (pos _ H) as P.
  change (newton f slope y g k) with (x k).
  destruct (Req_EM_T (slope (x k)) 0) as [E|E]; [lra|]. field. exact E.
Qed.

(** A point at or left of the root with f no more than y. *)
Definition below (z : R) : Prop := lo <= z <= hi /\ f z <= y.

(** A step from a point below goes right and stays below. *)
Lemma step_below : forall k, below (x k) -> below (x (S k)) /\ x k <= x (S k) /\
  y - f (x (S k)) <= (1 - ratio) * (y - f (x k)).
Proof.
  intros k ((H1 & H2) & H3). pose proof (pos (x k) (conj H1 H2)) as P. rewrite (step k (conj H1 H2)).
  set (u := x k) in *. set (d := (y - f u) / slope u).
  assert (D0 : 0 <= d). { unfold d. apply Rmult_le_pos; [lra|]. left. apply Rinv_0_lt_compat. exact P. }
  assert (Dd : slope u * d = y - f u). { unfold d. field. lra. }
  assert (Top : u + d <= hi).
  { pose proof (tangent u hi (conj H1 H2) (conj range (Rle_refl hi))) as T.
    assert (slope u * d <= slope u * (hi - u)) by lra. apply Rmult_le_reg_l in H; lra. }
  assert (Below : f (u + d) <= y).
  { pose proof (tangent u (u + d) (conj H1 H2) ltac:(lra)) as T. replace (u + d - u) with d in T by ring. lra. }
  split; [split; [lra|exact Below]|]. split; [lra|].
  destruct (Rle_lt_or_eq_dec _ _ D0) as [L|E].
  - destruct (mvt u (u + d) ltac:(lra)) as (c & M & C1 & C2). replace (u + d - u) with d in M by ring.
    assert (Q : ratio * (y - f u) <= slope c * d).
    { destruct (Bend c hi ltac:(lra) ltac:(lra) (Rle_refl _)) as (B1 & B2).
      destruct (Bend lo u (Rle_refl _) H1 H2) as (B3 & B4).
      rewrite <- Dd. unfold ratio. replace (slope hi / slope lo * (slope u * d)) with (slope u / slope lo * (slope hi * d))
        by (field; lra).
      assert (A1 : slope u / slope lo <= 1).
      { apply (Rmult_le_reg_r (slope lo)); [lra|]. unfold Rdiv. rewrite Rmult_assoc, Rinv_l by lra. lra. }
      assert (A2 : 0 <= slope hi * d) by (apply Rmult_le_pos; lra).
      assert (A3 : slope u / slope lo * (slope hi * d) <= 1 * (slope hi * d)) by (apply Rmult_le_compat_r; lra).
      assert (A4 : slope hi * d <= slope c * d) by (apply Rmult_le_compat_r; lra). lra. }
    lra.
  - assert (f u = y). { rewrite <- E in Dd. lra. } replace (u + d) with u by lra.
    pose proof ratio_pos. nra.
Qed.

Lemma first_below : below (x 1).
Proof.
  rewrite (step 0) by (change (x 0) with g; lra). change (x 0) with g. pose proof (pos g (conj Glo Ghi)) as P.
  set (d := (y - f g) / slope g). assert (Dd : slope g * d = y - f g). { unfold d. field. lra. }
  assert (Top : g + d <= hi).
  { pose proof (tangent g hi (conj Glo Ghi) (conj range (Rle_refl hi))) as T.
    assert (slope g * d <= slope g * (hi - g)) by lra. apply Rmult_le_reg_l in H; lra. }
  assert (Bottom : lo <= g + d).
  { assert (slope g * (lo - g) <= slope g * d) by lra. apply Rmult_le_reg_l in H; lra. }
  split; [lra|]. pose proof (tangent g (g + d) (conj Glo Ghi) (conj Bottom Top)) as T.
  replace (g + d - g) with d in T by ring. lra.
Qed.

Lemma all_below : forall k, below (x (S k)) /\ y - f (x (S k)) <= (1 - ratio) ^ k * (f hi - f lo).
Proof.
  induction k as [|k (IH1 & IH2)].
  - split; [exact first_below|]. destruct first_below as ((H1 & H2) & H3).
    pose proof (rising lo (x 1) (Rle_refl _) H1 H2). cbn [pow]. lra.
  - destruct (step_below (S k) IH1) as (A & _ & B). split; [exact A|]. cbn [pow].
    pose proof ratio_pos. assert ((1 - ratio) * (y - f (x (S k))) <= (1 - ratio) * ((1 - ratio) ^ k * (f hi - f lo))).
    { apply Rmult_le_compat_l; lra. }
    lra.
Qed.

(** The step after a point within the tolerance. *)
Lemma after : forall k tol, Rabs (f (x k) - y) <= tol -> lo <= x k <= hi -> (below (x k) \/ k = 0%nat) ->
  0 <= y - f (x (S k)) <= tol / ratio /\ (below (x k) -> y - f (x (S k)) <= tol).
Proof.
  intros k tol H Hk B. pose proof ratio_pos as (R1 & R2).
  assert (T0 : 0 <= tol) by (pose proof (Rabs_pos (f (x k) - y)); lra).
  assert (Tr : tol <= tol / ratio).
  { apply (Rmult_le_reg_r ratio); [lra|]. unfold Rdiv. rewrite Rmult_assoc, Rinv_l by lra. nra. }
  assert (Low : below (x k) -> y - f (x (S k)) <= tol).
  { intros Bk. destruct (step_below k Bk) as (_ & _ & S). destruct Bk as (_ & Bk). rewrite Rabs_left1 in H by lra.
    assert ((1 - ratio) * (y - f (x k)) <= 1 * (y - f (x k))) by (apply Rmult_le_compat_r; lra). lra. }
  assert (Nx : f (x (S k)) <= y) by (destruct (all_below k) as ((_ & Q) & _); exact Q).
  split; [split; [lra|]|exact Low].
  destruct (Rle_dec (f (x k)) y) as [L|L]; [specialize (Low (conj Hk L)); lra|].
  apply Rnot_le_lt in L. rewrite Rabs_pos_eq in H by lra.
  pose proof (pos _ Hk) as P. destruct (all_below k) as ((Rg & _) & _). rewrite (step k Hk) in *.
  set (u := x k) in *. set (d := (y - f u) / slope u) in *.
  assert (Dd : slope u * d = y - f u). { unfold d. field. lra. }
  assert (D0 : d < 0). { assert (slope u * d < slope u * 0) by lra. apply Rmult_lt_reg_l in H0; lra. }
  destruct (mvt (u + d) u ltac:(lra)) as (c & M & C1 & C2). replace (u - (u + d)) with (- d) in M by ring.
  destruct (Bend lo c (Rle_refl _) ltac:(lra) ltac:(lra)) as (B1 & B2).
  destruct (Bend u hi (proj1 Hk) (proj2 Hk) (Rle_refl _)) as (B3 & B4).
  assert (A1 : slope c * - d <= slope lo * - d) by (apply Rmult_le_compat_r; lra).
  assert (A2 : - d <= tol / slope hi).
  { apply (Rmult_le_reg_r (slope hi)); [lra|]. unfold Rdiv. rewrite Rmult_assoc, Rinv_l by lra.
    assert (slope hi * - d <= slope u * - d) by (apply Rmult_le_compat_r; lra). lra. }
  assert (A3 : slope lo * - d <= slope lo * (tol / slope hi)). { apply Rmult_le_compat_l; [|exact A2]. pose proof (pos lo); lra. }
  unfold ratio. replace (tol / (slope hi / slope lo)) with (slope lo * (tol / slope hi)) by (field; pose proof (pos lo); lra). lra.
Qed.

(** What the search answers. *)
Lemma concave_answer : forall m tol, (1 <= m <= 100)%nat ->
  (m = 100%nat \/ Rabs (f (x (m - 1)%nat) - y) <= tol) -> (1 - ratio) ^ 99 * (f hi - f lo) <= tol ->
  lo <= x m <= hi /\ 0 <= y - f (x m) <= tol / ratio /\ (f g <= y \/ tol < Rabs (f g - y) -> y - f (x m) <= tol).
Proof.
  intros m tol Hm H Enough. pose proof ratio_pos as (R1 & R2).
  destruct m as [|k]; [lia|]. replace (S k - 1)%nat with k in H by lia.
  destruct (all_below k) as ((Rg & Nx) & Er). split; [exact Rg|].
  destruct H as [H|H].
  - injection H as ->. assert (T : y - f (x 100) <= tol) by lra.
    assert (Tr : tol <= tol / ratio).
    { apply (Rmult_le_reg_r ratio); [lra|]. unfold Rdiv. rewrite Rmult_assoc, Rinv_l by lra. nra. }
    split; [lra|]. intros _. exact T.
  - destruct k as [|k].
    + change (x 0) with g in H. destruct (after 0 tol H (conj Glo Ghi) (or_intror eq_refl)) as (A1 & A2).
      split; [exact A1|]. intros [L|L]; [|lra]. apply A2. split; [exact (conj Glo Ghi)|exact L].
    + destruct (all_below k) as (B & _). destruct (after (S k) tol H (proj1 B) (or_introl B)) as (A1 & A2).
      split; [exact A1|]. intros _. apply A2. exact B.
Qed.

End Concave.
