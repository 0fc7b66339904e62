(** The tension found by CatenarySolver, in exact arithmetic. *)
From Coq Require Import ZArith Bool List Reals Lra Lia.
From Verif Require Import Num NumFacts ModelBase ModelCatenary SpecCatenary ProofReal ProofVector HypFacts ProofCatenary
  SpecCatenary3 ProofCatenary3 ModelSolver SpecSolver ProofSolver.
Import ListNotations.
Open Scope R_scope.

(** ** The length falls with the tension, at a bounded rate *)
Lemma sinh_cosh_lt : forall z, 0 < z -> sinh z < z * cosh z.
Proof.
  intros z Hz. destruct (MVT_cor2 sinh cosh 0 z Hz) as (c & E & C).
  { intros. apply derivable_pt_lim_sinh. }
  rewrite sinh_0 in E. assert (cosh c < cosh z).
  { destruct (MVT_cor2 cosh sinh c z (proj2 C)) as (e & E2 & C2); [intros; apply derivable_pt_lim_cosh|].
    assert (P := sinh_pos e ltac:(lra)). nra. }
  nra.
Qed.

Lemma excess_le : forall z, 0 < z <= 1 -> z * cosh z - sinh z <= 1 / 2.
Proof.
  intros z Hz.
  assert (D : forall x, derivable_pt_lim (fun z => z * cosh z - sinh z) x (x * sinh x)).
  { intros x. replace (x * sinh x) with ((1 * cosh x + x * sinh x) - cosh x) by ring.
    apply derivable_pt_lim_minus; [|apply derivable_pt_lim_sinh].
    apply (derivable_pt_lim_mult id cosh x); [apply derivable_pt_lim_id|apply derivable_pt_lim_cosh]. }
  assert (E1 : 1 * cosh 1 - sinh 1 <= 1 / 2).
  { replace (1 * cosh 1 - sinh 1) with (exp (- (1))) by (unfold cosh, sinh; field).
    rewrite exp_Ropp. assert (P := exp_ineq1 1 ltac:(lra)). apply Rmult_le_reg_r with (exp 1); [lra|].
    rewrite Rinv_l by lra. lra. }
  destruct (Rle_lt_or_eq_dec z 1 (proj2 Hz)) as [L|EZ]; [|rewrite EZ; exact E1].
  destruct (MVT_cor2 _ _ z 1 L (fun c _ => D c)) as (c & E & C). cbn beta in E.
  assert (P := sinh_pos c ltac:(lra)). assert (0 < c * sinh c) by nra. nra.
Qed.

(** The length of the level span of width a. *)
Definition glen (a k : R) : R := 2 * k * sinh (a / (2 * k)).

Lemma glen_deriv : forall a k, 0 < k ->
  derivable_pt_lim (glen a) k (2 * (sinh (a / (2 * k)) - a / (2 * k) * cosh (a / (2 * k)))).
Proof.
  intros a k Hk. unfold glen.
  assert (D : derivable_pt_lim (fun k => a / (2 * k)) k (- (a / (2 * (k * k))))).
  { replace (- (a / (2 * (k * k)))) with ((0 * (2 * k) - (2 * 1) * a) / Rsqr (2 * k)) by (unfold Rsqr; field; lra).
    apply (derivable_pt_lim_div (fun _ => a) (fun k => 2 * k)); [apply derivable_pt_lim_const| |lra].
    apply (derivable_pt_lim_scal id 2 k 1), derivable_pt_lim_id. }
  replace (2 * (sinh (a / (2 * k)) - a / (2 * k) * cosh (a / (2 * k))))
    with ((2 * 1) * sinh (a / (2 * k)) + (2 * k) * (cosh (a / (2 * k)) * (- (a / (2 * (k * k)))))) by (field; lra).
  apply (derivable_pt_lim_mult (fun k => 2 * k) (fun k => sinh (a / (2 * k)))).
  - apply (derivable_pt_lim_scal id 2 k 1), derivable_pt_lim_id.
  - apply (derivable_pt_lim_comp (fun k => a / (2 * k)) sinh); [exact D|apply derivable_pt_lim_sinh].
Qed.

Lemma glen_pos : forall a k, 0 < a -> 0 < k -> 0 < glen a k.
Proof.
  intros a k Ha Hk. unfold glen. assert (P := sinh_pos (a / (2 * k)) ltac:(apply Rdiv_lt_0_compat; lra)). nra.
Qed.

Lemma glen_rate : forall a k1 k2, 0 < a -> a / 2 <= k1 -> k1 < k2 ->
  0 < glen a k1 - glen a k2 <= k2 - k1.
Proof.
  intros a k1 k2 Ha H1 H2.
  destruct (MVT_cor2 (glen a) (fun k => 2 * (sinh (a / (2 * k)) - a / (2 * k) * cosh (a / (2 * k)))) k1 k2 H2) as (c & E & C).
  { intros c Hc. apply glen_deriv. lra. }
  assert (Z : 0 < a / (2 * c) <= 1).
  { split; [apply Rdiv_lt_0_compat; lra|]. apply Rmult_le_reg_r with (2 * c); [lra|]. unfold Rdiv.
    rewrite Rmult_assoc, Rinv_l by lra. lra. }
  assert (A := sinh_cosh_lt _ (proj1 Z)). assert (B := excess_le _ Z).
  set (z := a / (2 * c)) in *. set (e := z * cosh z - sinh z) in *.
  replace (2 * (sinh z - z * cosh z)) with (- (2 * e)) in E by (unfold e; ring).
  assert (0 < e) by (unfold e; lra). split; nra.
Qed.

Lemma hyp_rate : forall b x y, 0 < x < y -> 0 < sqrt (b * b + y * y) - sqrt (b * b + x * x) <= y - x.
Proof.
  intros b x y H. set (p := sqrt (b * b + y * y)). set (q := sqrt (b * b + x * x)).
  assert (Hp : p * p = b * b + y * y) by (apply sqrt_sqrt; nra).
  assert (Hq : q * q = b * b + x * x) by (apply sqrt_sqrt; nra).
  assert (Hq0 : 0 < q) by (apply sqrt_lt_R0; nra).
  assert (Hpq : q < p) by (apply sqrt_lt_1; nra).
  split; [lra|].
  assert (X : x <= q) by (apply Rsqr_incr_0_var; [unfold Rsqr; nra|lra]).
  assert (Y : y <= p) by (apply Rsqr_incr_0_var; [unfold Rsqr; nra|lra]).
  assert (F : (p - q) * (p + q) = (y - x) * (y + x)) by (transitivity (p * p - q * q); [ring|]; rewrite Hp, Hq; ring).
  apply Rmult_le_reg_r with (p + q); [lra|]. rewrite F. apply Rmult_le_compat_l; lra.
Qed.

Lemma twin_refl : forall c : Catenary3d RNum, c3_current c -> twin c c.
Proof. intros c I. exact (conj I (conj I (conj eq_refl (conj eq_refl eq_refl)))). Qed.

(** ** The loop *)
Definition fits (u : Catenary3d RNum -> R -> R * Catenary3d RNum) (c0 : Catenary3d RNum) (f : R -> R) : Prop :=
  forall c h, twin c c0 -> fst (u c h) = f h /\ twin (snd (u c h)) c0.

(** The points after a pass. *)
Definition next_x (f : R -> R) (t : R) (l r : Point2d RNum) : R := p2x l + (t - p2y l) / ((p2y r - p2y l) / (p2x r - p2x l)).

Inductive moved (f : R -> R) (t : R) (l r : Point2d RNum) : Point2d RNum -> Point2d RNum -> Prop :=
| mv_left : let x := next_x f t l r in x < p2x l -> moved f t l r (mkPoint2d (N := RNum) x (f x)) l
| mv_in_right : let x := next_x f t l r in p2x l < x < p2x r -> f x < t -> moved f t l r l (mkPoint2d (N := RNum) x (f x))
| mv_in_left : let x := next_x f t l r in p2x l < x < p2x r -> t < f x -> moved f t l r (mkPoint2d (N := RNum) x (f x)) r
| mv_right : let x := next_x f t l r in p2x l <= x -> p2x r < x -> moved f t l r r (mkPoint2d (N := RNum) x (f x))
| mv_stuck : let x := next_x f t l r in (p2x l < x < p2x r -> f x = t) -> moved f t l r l r.

Lemma pass_moved : forall u c0 f (t : R) s, fits u c0 f -> twin (lo_catenary s) c0 ->
  let s' := solve_pass u t s in
  moved f t (lo_left s) (lo_right s) (lo_left s') (lo_right s') /\
  lo_current s' = mkPoint2d (N := RNum) (next_x f t (lo_left s) (lo_right s)) (f (next_x f t (lo_left s) (lo_right s))) /\
  lo_iter s' = (lo_iter s + 1)%Z /\ twin (lo_catenary s') c0.
Proof.
  intros u c0 f t s F T s'. unfold s', solve_pass. clear s'. rn.
  fold (next_x f t (lo_left s) (lo_right s)).
  destruct (F (lo_catenary s) (next_x f t (lo_left s) (lo_right s)) T) as (A & B).
  destruct (u (lo_catenary s) _) as [y c]. cbn [fst snd] in A, B. subst y.
  set (x := next_x f t (lo_left s) (lo_right s)).
  set (l := lo_left s) in *. set (r := lo_right s) in *.
  destruct (Rltb x (p2x l)) eqn:E1; [cbn [lo_left lo_right lo_current lo_iter lo_catenary]|].
  { split; [|auto]. apply Rltb_true in E1. apply mv_left. exact E1. }
  apply Rltb_false in E1.
  destruct (Rltb (p2x l) x) eqn:E2; destruct (Rltb x (p2x r)) eqn:E3; cbn [andb].
  - apply Rltb_true in E2. apply Rltb_true in E3. destruct (Rltb (f x) t) eqn:E4; [|destruct (Rltb t (f x)) eqn:E5].
    + cbn [lo_left lo_right lo_current lo_iter lo_catenary]. split; [|auto]. apply Rltb_true in E4. apply mv_in_right; [split; assumption|assumption].
    + cbn [lo_left lo_right lo_current lo_iter lo_catenary]. split; [|auto]. apply Rltb_true in E5. apply mv_in_left; [split; assumption|assumption].
    + cbn [lo_left lo_right lo_current lo_iter lo_catenary]. split; [|auto]. apply Rltb_false in E4. apply Rltb_false in E5.
      apply mv_stuck. intros _. apply Rle_antisym; assumption.
  - destruct (Rltb (p2x r) x) eqn:E4; cbn [lo_left lo_right lo_current lo_iter lo_catenary]; (split; [|auto]);
      [|apply mv_stuck; fold x; intros Q; exfalso; first [apply Rltb_false in E2|apply Rltb_false in E3]; lra].
    apply Rltb_true in E4. apply mv_right; assumption.
  - destruct (Rltb (p2x r) x) eqn:E4; cbn [lo_left lo_right lo_current lo_iter lo_catenary]; (split; [|auto]);
      [|apply mv_stuck; fold x; intros Q; exfalso; first [apply Rltb_false in E2|apply Rltb_false in E3]; lra].
    apply Rltb_true in E4. apply mv_right; assumption.
  - destruct (Rltb (p2x r) x) eqn:E4; cbn [lo_left lo_right lo_current lo_iter lo_catenary]; (split; [|auto]);
      [|apply mv_stuck; fold x; intros Q; exfalso; first [apply Rltb_false in E2|apply Rltb_false in E3]; lra].
    apply Rltb_true in E4. apply mv_right; assumption.
Qed.

Lemma lit001 : IZR 1 * powerRZ 10 (-2) = 1 / 100.
Proof. simpl. lra. Qed.

Section Invariant.
Variable u : Catenary3d RNum -> R -> R * Catenary3d RNum.
Variable c0 : Catenary3d RNum.
Variable f : R -> R.
Variable t : R.
Variable P : Point2d RNum -> Point2d RNum -> R -> Prop.
Hypothesis F : fits u c0 f.
Hypothesis keep : forall l r cur l' r', P l r cur -> 1 / 100 < Rabs (p2x l - p2x r) -> moved f t l r l' r' ->
  P l' r' (next_x f t l r).

Lemma loop_inv : forall fuel s, twin (lo_catenary s) c0 -> P (lo_left s) (lo_right s) (p2x (lo_current s)) ->
  (101 <= lo_iter s + Z.of_nat fuel)%Z ->
  let s' := solve_loop u t fuel s in
  P (lo_left s') (lo_right s') (p2x (lo_current s')) /\ twin (lo_catenary s') c0 /\
  ((lo_iter s' < 100)%Z -> Rabs (p2x (lo_left s') - p2x (lo_right s')) <= 1 / 100).
Proof using F keep.
  induction fuel as [|n IH]; intros s T HP HF s'; unfold s'; cbn [solve_loop].
  { split; [assumption|]. split; [assumption|]. lia. }
  destruct (andb _ _) eqn:C.
  - apply andb_prop in C. destruct C as (C1 & C2). destruct (pass_moved u c0 f t s F T) as (M & E & I & T').
    apply IH; [exact T'| |rewrite I; lia]. rewrite E. cbn [p2x].
    apply keep with (cur := p2x (lo_current s)); [exact HP| |exact M].
    revert C1. rn. rewrite flit_R, lit001. intros C1. apply Rltb_true in C1. exact C1.
  - split; [assumption|]. split; [assumption|]. intros Hi. apply andb_false_iff in C. destruct C as [C|C]; [|apply Z.leb_gt in C; lia].
    revert C. rn. rewrite flit_R, lit001. intros C. apply Rltb_false in C. exact C.
Qed.
End Invariant.

(** The step of the secant is short, so the value is near the target. *)
Lemma moved_close : forall (tol : R) (f : R -> R) (t : R) (l r l' r' : Point2d RNum), 0 <= tol -> (p2y l : R) = f (p2x l) -> (p2y r : R) = f (p2x r) ->
  tol < Rabs (p2x l - p2x r) -> moved f t l r l' r' ->
  (p2y l' : R) = f (p2x l') /\ (p2y r' : R) = f (p2x r') /\
  (tol < Rabs (p2x l' - p2x r') \/ secant_close f t (Rabs (p2x l' - p2x r')) (next_x f t l r)).
Proof.
  intros tol f t l r l' r' H0 Hl Hr D M.
  assert (LR : p2x l <> p2x r). { intros E. rewrite E, Rminus_eq_0, Rabs_R0 in D. lra. }
  destruct (Req_dec (p2y l) (p2y r)) as [Y|Y].
  { assert (X : next_x f t l r = p2x l).
    { unfold next_x. rewrite Y, Rminus_eq_0. unfold Rdiv. rewrite Rmult_0_l, Rinv_0, Rmult_0_r. ring. }
    destruct M; cbn [p2x p2y]; try subst x; rewrite ?X in *; try lra; auto.
    (* the right point is left of the left one *)
    split; [exact Hr|]. split; [reflexivity|]. left. rewrite Rabs_minus_sym. exact D. }
  assert (EL : (f (p2x r) - f (p2x l)) * (next_x f t l r - p2x l) = (t - f (p2x l)) * (p2x r - p2x l)).
  { unfold next_x. rewrite Hl, Hr in *. field. split; lra. }
  assert (ER : (f (p2x l) - f (p2x r)) * (next_x f t l r - p2x r) = (t - f (p2x r)) * (p2x l - p2x r)).
  { unfold next_x. rewrite Hl, Hr in *. field. split; lra. }
  rewrite Hl, Hr in Y.
  assert (CL : secant_close f t (Rabs (next_x f t l r - p2x l)) (next_x f t l r)).
  { exists (p2x l), (p2x r). repeat split; try assumption. apply Rle_refl. }
  assert (CR : secant_close f t (Rabs (next_x f t l r - p2x r)) (next_x f t l r)).
  { exists (p2x r), (p2x l). repeat split; try (apply not_eq_sym; assumption); try assumption. apply Rle_refl. }
  destruct M; cbn [p2x p2y].
  - split; [reflexivity|]. split; [exact Hl|]. right. exact CL.
  - split; [exact Hl|]. split; [reflexivity|]. right. rewrite Rabs_minus_sym. exact CL.
  - split; [reflexivity|]. split; [exact Hr|]. right. exact CR.
  - split; [exact Hr|]. split; [reflexivity|]. right. rewrite Rabs_minus_sym. exact CR.
  - auto.
Qed.

Lemma between_close : forall u c0 (f : R -> R) (t : R) (l r : Point2d RNum), fits u c0 f -> c3_current c0 ->
  (p2y l : R) = f (p2x l) -> (p2y r : R) = f (p2x r) ->
  let res := solve_between u t l r c0 in
  fst res = true ->
  c3_tension_horizontal (snd res) = @ferr RNum \/ secant_close f t (1 / 100) (c3_tension_horizontal (snd res)).
Proof.
  intros u c0 f t l r F I Hl Hr res H. unfold res, solve_between in *. clear res.
  set (s0 := mkLoopState l r Point2d_default 0 c0) in *.
  destruct (loop_inv u c0 f t (fun (l r : Point2d RNum) (cur : R) => (p2y l : R) = f (p2x l) /\ (p2y r : R) = f (p2x r) /\
      (cur = @ferr RNum \/ 1 / 100 < Rabs (p2x l - p2x r) \/ secant_close f t (Rabs (p2x l - p2x r)) cur)) F) with (fuel := Z.to_nat 102) (s := s0) as (A & _ & B).
  - intros l0 r0 cur l' r' (Q1 & Q2 & _) D M. destruct (moved_close (1 / 100) f t l0 r0 l' r' ltac:(lra) Q1 Q2 D M) as (E1 & E2 & E3). auto.
  - unfold s0. cbn [lo_catenary]. exact (twin_refl c0 I).
  - unfold s0. cbn [lo_left lo_right lo_current]. split; [exact Hl|]. split; [exact Hr|]. left. reflexivity.
  - unfold s0. cbn [lo_iter]. rewrite Z2Nat.id; lia.
  - destruct (lo_iter _ <? 100)%Z eqn:E; [|discriminate]. apply Z.ltb_lt in E. specialize (B E).
    cbn [snd]. change (c3_tension_horizontal (c3_set_tension ?c ?h)) with h.
    destruct A as (_ & _ & [A|[A|A]]); [left; exact A|lra|right].
    destruct A as (a & b & N1 & N2 & E1 & E2). exists a, b. repeat split; try assumption. lra.
Qed.

(** For a falling function with rate at most m, from a left point above the target. *)
Section Falling.
Variable f : R -> R.
Variables x0 m t : R.
Hypothesis fall : forall x y, x0 <= x -> x < y -> 0 < f x - f y <= m * (y - x).

Definition falling_inv (l r : Point2d RNum) (cur : R) : Prop :=
  (p2y l : R) = f (p2x l) /\ (p2y r : R) = f (p2x r) /\ x0 <= p2x l /\ p2x l < p2x r /\ t <= f (p2x l) /\
  (cur = @ferr RNum \/ 1 / 100 < p2x r - p2x l \/ (x0 <= cur /\ Rabs (f cur - t) <= m * (p2x r - p2x l))).

Lemma falling_keep : forall l r cur l' r', falling_inv l r cur -> 1 / 100 < Rabs (p2x l - p2x r) -> moved f t l r l' r' ->
  falling_inv l' r' (next_x f t l r).
Proof using fall.
  intros l r cur l' r' (Hl & Hr & H0 & HLR & HT & _) D M.
  assert (FL := fall _ _ H0 HLR).
  assert (M0 : 0 < m) by nra.
  set (d := f (p2x l) - f (p2x r)) in *.
  assert (X : next_x f t l r - p2x l = (f (p2x l) - t) * ((p2x r - p2x l) / d)).
  { unfold next_x. rewrite Hl, Hr. unfold d in *. field. split; lra. }
  assert (Q : 0 < (p2x r - p2x l) / d) by (apply Rdiv_lt_0_compat; lra).
  set (q := (p2x r - p2x l) / d) in *.
  assert (QD : q * d = p2x r - p2x l) by (unfold q; field; lra).
  set (x := next_x f t l r) in *.
  assert (QM : 1 <= m * q). { apply Rmult_le_reg_r with d; [lra|]. rewrite Rmult_assoc, QD. lra. }
  assert (XL : p2x l <= x) by nra.
  destruct M as [y H|y H H1|y H H1|y H H1|y H]; try (change y with x in *; clear y); cbn [p2x p2y] in *.
  - exfalso. lra.
  - unfold falling_inv. cbn [p2x p2y]. repeat split; try assumption; try lra. right. right. split; [lra|].
    assert (L := fall _ _ H0 (proj1 H)). rewrite Rabs_minus_sym, Rabs_pos_eq by lra. lra.
  - unfold falling_inv. cbn [p2x p2y].
    assert (XR : f (p2x r) < t).
    { assert (A : q * (f (p2x l) - t) < q * d) by (rewrite QD, Rmult_comm, <- X; lra).
      apply Rmult_lt_reg_l in A; [unfold d in A; lra|exact Q]. }
    assert (L := fall x (p2x r) ltac:(lra) (proj2 H)).
    repeat split; try assumption; try lra. right. right. split; [lra|]. rewrite Rabs_pos_eq by lra. lra.
  - unfold falling_inv. cbn [p2x p2y].
    assert (L := fall (p2x r) x ltac:(lra) H1).
    assert (XR : x - p2x r = (f (p2x r) - t) * q).
    { replace (x - p2x r) with ((x - p2x l) - q * d) by (rewrite QD; ring). rewrite X. unfold d. ring. }
    assert (T : 0 < f (p2x r) - t) by nra.
    assert (T2 : f (p2x r) - t <= m * (x - p2x r)) by (rewrite XR; nra).
    repeat split; try assumption; try lra. right. right. split; [lra|]. apply Rabs_le. lra.
  - unfold falling_inv. repeat split; try assumption. right. left. rewrite Rabs_minus_sym, Rabs_pos_eq in D by lra. exact D.
Qed.

Lemma falling_close : forall u c0 (l r : Point2d RNum), fits u c0 f -> c3_current c0 ->
  (p2y l : R) = f (p2x l) -> (p2y r : R) = f (p2x r) -> x0 <= p2x l -> p2x l < p2x r -> t <= f (p2x l) ->
  let res := solve_between u t l r c0 in
  fst res = true ->
  c3_tension_horizontal (snd res) = @ferr RNum \/
  (x0 <= c3_tension_horizontal (snd res) /\ Rabs (f (c3_tension_horizontal (snd res)) - t) <= m / 100).
Proof using fall.
  intros u c0 l r F I Hl Hr H0 HLR HT res H. unfold res, solve_between in *. clear res.
  set (s0 := mkLoopState l r Point2d_default 0 c0) in *.
  destruct (loop_inv u c0 f t falling_inv F falling_keep) with (fuel := Z.to_nat 102) (s := s0) as (A & _ & B).
  - unfold s0. cbn [lo_catenary]. exact (twin_refl c0 I).
  - unfold s0, falling_inv. cbn [lo_left lo_right lo_current]. repeat split; try assumption. left. reflexivity.
  - unfold s0. cbn [lo_iter]. rewrite Z2Nat.id; lia.
  - destruct (lo_iter _ <? 100)%Z eqn:E; [|discriminate]. apply Z.ltb_lt in E. specialize (B E).
    cbn [snd]. change (c3_tension_horizontal (c3_set_tension ?c ?h)) with h.
    destruct A as (_ & _ & A0 & A1 & _ & A). rewrite Rabs_minus_sym, Rabs_pos_eq in B by lra.
    destruct A as [A|[A|A]]; [left; exact A|lra|right].
    assert (M0 : 0 < m) by (assert (G := fall _ _ A0 A1); nra).
    split; [apply A|]. destruct A as (_ & A). nra.
Qed.
End Falling.
