(** Targets of CatenarySolver, in exact arithmetic. *)
From Coq Require Import ZArith Bool List Reals Lra Lia.
From Verif Require Import Num NumFacts ModelBase ModelCatenary SpecCatenary ProofReal ProofVector HypFacts ProofCatenary
  SpecCatenary3 ProofCatenary3 ModelSolver SpecSolver ProofSolver ProofSolverReal ProofSolverRate.
Import ListNotations.
Open Scope R_scope.

Section Target.
Variables sp w : Vector3d RNum.
Let cat (h : R) : Catenary3d RNum := c3_fresh ADPositive sp h w.

Lemma cat_current : forall h, c3_current (cat h).
Proof. intros h U. discriminate U. Qed.

(** The inputs that Validate accepts. *)
Definition inputs_ok : Prop :=
  0 < v3x sp /\ (v3y sp : R) = 0 /\ (v3x w : R) = 0 /\ 0 <= v3y w /\ 0 < v3z w.

Lemma cat_usable : forall h, inputs_ok -> 0 < h -> usable3 (cat h).
Proof. intros h (A & B & C & D & E) H. repeat split; assumption. Qed.

Lemma cat_Validate : forall h, c3_Validate (cat h) = true -> inputs_ok /\ 0 < h /\
  Vector3d_Magnitude sp / 2 * Vector3d_Magnitude w <= h.
Proof.
  intros h H. unfold c3_Validate in H. destruct (c3_inputs_valid (cat h)) eqn:V; [|discriminate].
  unfold c3_inputs_valid in V. apply negb_true_iff in V. repeat (apply orb_false_iff in V; destruct V as [V ?]).
  cbn in V. rn. change (c3_spacing (cat h)) with sp in *. change (c3_weight (cat h)) with w in *.
  assert (O : inputs_ok).
  { repeat match goal with
    | H : Rleb _ _ = false |- _ => apply Rleb_false in H
    | H : Rltb _ _ = false |- _ => apply Rltb_false in H
    | H : negb (Reqb _ _) = false |- _ => apply negb_false_iff in H; apply Reqb_true in H
    end. repeat split; rn; try assumption; try (rn; lra). }
  unfold c2_Validate in H. destruct (orb _ _) eqn:O2; [discriminate|].
  repeat (apply orb_false_iff in O2; destruct O2 as [O2 ?]).
  split; [exact O|].
  assert (Hh : 0 < h). { revert O2. change (c2_tension (c3_catenary_2d (c3_ensure (cat h)))) with h. rn. apply Rleb_false. }
  split; [exact Hh|].
  unfold c2_ValidateCurveAndSpacing in H. apply negb_true_iff in H. revert H. rn. intros H. apply Rltb_false in H.
  assert (U := cat_usable h O Hh).
  assert (SP := d_spacing (cat h) (cat_current h) U). assert (WE := d_weight (cat h) (cat_current h) U).
  unfold c2_Constant, c2_ConstantMinimum in H. rewrite SP, WE in H. rn. rewrite mag_R in H. 
  change (c2_tension (c3_catenary_2d (c3_ensure (cat h)))) with h in H.
  rewrite (mag_ab (cat h) U) in H.
  assert (WP := W3_pos (cat h) U).
  change (Vector3d_Magnitude sp) with (Vector3d_Magnitude (c3_spacing (cat h))).
  change (Vector3d_Magnitude w) with (Vector3d_Magnitude (c3_weight (cat h))).
  rewrite (mags (cat h) U), (magw (cat h) U).
  apply Rmult_le_compat_r with (r := W3 (cat h)) in H; [|lra]. unfold Rdiv at 2 in H. rewrite Rmult_assoc, Rinv_l, Rmult_1_r in H by lra.
  exact H.
Qed.

(** ** The length *)
Definition flength (h : R) : R := c3_Length (cat h).

Lemma flength_R : forall h, inputs_ok -> 0 < h ->
  flength h = sqrt (b3 (cat 1) * b3 (cat 1) + glen (a3 (cat 1)) (h / W3 (cat 1)) * glen (a3 (cat 1)) (h / W3 (cat 1))).
Proof.
  intros h O Hh. assert (U := cat_usable h O Hh). assert (I := cat_current h).
  destruct (length_facts _ (d_current (cat h) I) (d_h_pos (cat h) I U) (d_w_pos (cat h) I U) (d_a_pos (cat h) I U)) as (P & E & _).
  rewrite (d_spacing _ I U), (d_weight _ I U), (d_tension _ I) in E. cbn [v2x v2y] in E.
  unfold flength, c3_Length. unfold glen. change (b3 (cat 1)) with (b3 (cat h)). change (a3 (cat 1)) with (a3 (cat h)).
  change (W3 (cat 1)) with (W3 (cat h)). change (c3_tension_horizontal (cat h)) with h in E.
  rewrite <- E. symmetry. apply sqrt_square. left. exact P.
Qed.

Lemma flength_falls : inputs_ok -> let x0 := Vector3d_Magnitude sp / 2 * Vector3d_Magnitude w in
  forall x y : R, x0 <= x -> x < y -> 0 < flength x - flength y <= / Vector3d_Magnitude w * (y - x).
Proof.
  intros O x0 x y Hx Hy. assert (U := cat_usable 1 O Rlt_0_1).
  assert (WP := W3_pos (cat 1) U). assert (SP := S3_pos (cat 1) U). assert (AP := a3_pos (cat 1) U).
  assert (AS := a3_sq (cat 1) U).
  assert (EW : (Vector3d_Magnitude w : R) = W3 (cat 1)) by exact (magw (cat 1) U).
  assert (ES : (Vector3d_Magnitude sp : R) = S3 (cat 1)) by exact (mags (cat 1) U).
  unfold x0 in Hx. rewrite ES, EW in Hx. rewrite EW.
  assert (A : a3 (cat 1) <= S3 (cat 1)).
  { apply Rsqr_incr_0_var; [|lra]. unfold Rsqr. rewrite AS. assert (0 <= b3 (cat 1) * b3 (cat 1)) by nra. lra. }
  assert (P0 : 0 < S3 (cat 1) / 2 * W3 (cat 1)) by nra.
  assert (K1 : a3 (cat 1) / 2 <= x / W3 (cat 1)).
  { apply Rmult_le_reg_r with (W3 (cat 1)); [exact WP|]. unfold Rdiv at 2. rewrite Rmult_assoc, Rinv_l, Rmult_1_r by lra. nra. }
  assert (K2 : x / W3 (cat 1) < y / W3 (cat 1)) by (apply Rmult_lt_compat_r; [apply Rinv_0_lt_compat|]; assumption).
  assert (G := glen_rate _ _ _ AP K1 K2).
  rewrite !flength_R by (assumption || lra).
  assert (GP := glen_pos (a3 (cat 1)) (y / W3 (cat 1)) AP ltac:(apply Rdiv_lt_0_compat; lra)).
  assert (GG : 0 < glen (a3 (cat 1)) (y / W3 (cat 1)) < glen (a3 (cat 1)) (x / W3 (cat 1))) by lra.
  assert (H := hyp_rate (b3 (cat 1)) _ _ GG).
  split; [lra|]. replace (/ W3 (cat 1) * (y - x)) with (y / W3 (cat 1) - x / W3 (cat 1)) by (field; lra). lra.
Qed.

(** ** The sag and the tensions at the ends *)
Lemma span_facts : inputs_ok -> let s := Vector3d_Magnitude sp in let q := Vector3d_Magnitude w in
  (s : R) = S3 (cat 1) /\ (q : R) = W3 (cat 1) /\ 0 < s /\ 0 < q /\ 0 < a3 (cat 1) /\
  a3 (cat 1) * a3 (cat 1) + b3 (cat 1) * b3 (cat 1) = s * s /\ a3 (cat 1) <= s /\ v3x sp <= a3 (cat 1).
Proof.
  intros O s q. assert (U := cat_usable 1 O Rlt_0_1).
  assert (ES : (s : R) = S3 (cat 1)) by exact (mags (cat 1) U). assert (EW : (q : R) = W3 (cat 1)) by exact (magw (cat 1) U).
  assert (WP := W3_pos (cat 1) U). assert (SP := S3_pos (cat 1) U). assert (AP := a3_pos (cat 1) U).
  assert (AS := a3_sq (cat 1) U). assert (BS := b3_sq (cat 1) U). assert (SS := S3_sq (cat 1) ).
  rewrite ES, EW. change (F RNum) with R in *.
  refine (conj eq_refl (conj eq_refl (conj SP (conj WP (conj AP (conj _ (conj _ _))))))).
  - rewrite AS. ring.
  - apply Rsqr_incr_0_var; [|lra]. unfold Rsqr. rewrite AS. assert (0 <= b3 (cat 1) * b3 (cat 1)) by nra. lra.
  - destruct O as (P & _). apply Rsqr_incr_0_var; [|lra]. unfold Rsqr. rewrite AS, SS.
    change (v3z (c3_spacing (cat 1))) with (v3z sp) in *. change (v3x (c3_spacing (cat 1))) with (v3x sp). lra.
Qed.

Lemma fsag_falls : inputs_ok -> let x0 := Vector3d_Magnitude sp / 2 * Vector3d_Magnitude w in
  forall x y : R, x0 <= x -> x < y -> 0 < c3_Sag (cat x) - c3_Sag (cat y) <= 4 / 3 / Vector3d_Magnitude w * (y - x).
Proof.
  intros O x0 x y Hx Hy. destruct (span_facts O) as (ES & EW & PS & PW & PA & AB & _).
  assert (X0 : 0 < x) by (assert (0 < x0) by (unfold x0; nra); lra). unfold x0 in Hx. clear x0. rewrite EW in *. rewrite ES in *.
  assert (Ux := cat_usable x O X0). assert (Uy := cat_usable y O ltac:(lra)).
  assert (Ix := cat_current x). assert (Iy := cat_current y).
  assert (P := plane_sag_falls _ _ (d_current _ Ix) (d_current _ Iy)
    ltac:(rewrite (d_spacing _ Ix Ux), (d_spacing _ Iy Uy); reflexivity) ltac:(rewrite (d_weight _ Ix Ux), (d_weight _ Iy Uy); reflexivity)
    (d_w_pos _ Ix Ux) (d_a_pos _ Ix Ux) (d_h_pos _ Ix Ux)). cbv zeta in P.
  rewrite (d_spacing _ Ix Ux), (d_weight _ Ix Ux), (d_tension _ Ix), (d_tension _ Iy) in P. cbn [v2x v2y] in P.
  change (c3_tension_horizontal (cat x)) with x in P. change (c3_tension_horizontal (cat y)) with y in P.
  change (a3 (cat x)) with (a3 (cat 1)) in P. change (b3 (cat x)) with (b3 (cat 1)) in P. change (W3 (cat x)) with (W3 (cat 1)) in P.
  rewrite AB, sqrt_square in P by (change (F RNum) with R in *; lra).
  exact (P Hy Hx).
Qed.

Lemma end_tension : forall p, at_end p -> inputs_ok -> exists s, forall h, 0 < h ->
  quantity TgTension p (cat h) = W3 (cat 1) * (endmean (a3 (cat 1)) (b3 (cat 1)) (h / W3 (cat 1)) + s) /\ h <= quantity TgTension p (cat h).
Proof.
  intros p Hp O.
  assert (L : forall h, 0 < h -> (c3_Tension (cat h) (0 : R) : R) = W3 (cat 1) * (endmean (a3 (cat 1)) (b3 (cat 1)) (h / W3 (cat 1)) - b3 (cat 1) / 2) /\
    (c3_Tension (cat h) (1 : R) : R) = W3 (cat 1) * (endmean (a3 (cat 1)) (b3 (cat 1)) (h / W3 (cat 1)) + b3 (cat 1) / 2) /\
    (c3_TensionMax (cat h) : R) = (if Rle_dec (b3 (cat 1)) 0 then c3_Tension (cat h) (0 : R) else c3_Tension (cat h) (1 : R)) /\
    forall p : R, h <= c3_Tension (cat h) p).
  { intros h Hh. assert (U := cat_usable h O Hh). assert (I := cat_current h).
    assert (A := plane_left _ (d_current _ I) (d_h_pos _ I U) (d_w_pos _ I U) (d_a_pos _ I U)).
    assert (B := plane_right _ (d_current _ I) (d_h_pos _ I U) (d_w_pos _ I U) (d_a_pos _ I U)).
    assert (C := tensionmax_R _ (d_current _ I)).
    assert (D := tension_ge _ (d_current _ I) (d_h_pos _ I U) (d_w_pos _ I U)).
    unfold ck in A, B. rewrite (d_spacing _ I U), (d_weight _ I U), (d_tension _ I) in A, B. rewrite (d_spacing _ I U) in C.
    exact (conj A (conj B (conj C D))). }
  destruct Hp as [-> | [-> | ->]].
  - exists (if Rle_dec (b3 (cat 1)) 0 then - (b3 (cat 1) / 2) else b3 (cat 1) / 2). intros h Hh. destruct (L h Hh) as (A & B & C & D).
    unfold quantity. destruct (Req_EM_T (-1) (-1)) as [_|N]; [|contradiction N; reflexivity].
    rewrite C. destruct Rle_dec as [S|S]; [split; [exact A|apply D]|split; [exact B|apply D]].
  - exists (- (b3 (cat 1) / 2)). intros h Hh. destruct (L h Hh) as (A & B & C & D).
    unfold quantity. destruct (Req_EM_T 0 (-1)) as [N|_]; [lra|]. split; [exact A|apply D].
  - exists (b3 (cat 1) / 2). intros h Hh. destruct (L h Hh) as (A & B & C & D).
    unfold quantity. destruct (Req_EM_T 1 (-1)) as [N|_]; [lra|]. split; [exact B|apply D].
Qed.

Lemma end_rises : forall p, at_end p -> inputs_ok -> let x0 := Vector3d_Magnitude sp / 2 * Vector3d_Magnitude w in
  exists d : R -> R, (forall z, x0 <= z -> 0 < d z <= Vector3d_Magnitude sp / v3x sp) /\
    (forall x z, x0 <= x -> x0 <= z -> quantity TgTension p (cat z) + d z * (x - z) <= quantity TgTension p (cat x)).
Proof.
  intros p Hp O x0. destruct (span_facts O) as (ES & EW & PS & PW & PA & AB & AS & XA).
  destruct (end_tension p Hp O) as (s & ET).
  set (S := Vector3d_Magnitude sp) in *. set (W := Vector3d_Magnitude w) in *. rewrite <- EW in ET.
  set (a := a3 (cat 1)) in *. set (b := b3 (cat 1)) in *. change (F RNum) with R in *.
  destruct (endmean_tangent a b (S / a) (S / 2)) as (d & D1 & D2).
  - exact PA.
  - apply Rdiv_lt_0_compat; lra.
  - replace (S / a * (S / a)) with (S * S / (a * a)) by (field; lra). rewrite <- AB. field. lra.
  - lra.
  - assert (PX : 0 < v3x sp) by exact (proj1 O).
    assert (K : forall z, x0 <= z -> S / 2 <= z / W).
    { intros z Hz. apply Rmult_le_reg_r with W; [lra|]. unfold Rdiv at 2. rewrite Rmult_assoc, Rinv_l, Rmult_1_r by lra. exact Hz. }
    assert (X0 : 0 < x0) by (unfold x0; nra).
    exists (fun z => d (z / W)). split.
    + intros z Hz. destruct (D1 _ (K z Hz)) as (A & B). split; [exact A|]. apply Rle_trans with (1 := B).
      apply Rmult_le_compat_l; [lra|]. apply Rinv_le_contravar; lra.
    + intros x z Hx Hz. destruct (ET x ltac:(lra)) as (-> & _). destruct (ET z ltac:(lra)) as (-> & _).
      assert (Q := D2 _ _ (K x Hx) (K z Hz)). apply Rmult_le_compat_l with (r := W) in Q; [|lra].
      replace (W * (endmean a b (z / W) + d (z / W) * (x / W - z / W))) with (W * endmean a b (z / W) + d (z / W) * (x - z)) in Q by (field; lra).
      lra.
Qed.

(** ** The three Update functions *)
Lemma fits_fair : forall u c0, fair u -> twin c0 (cat 0) -> fits u c0 (fun h => fst (u (cat 0) h)).
Proof.
  intros u c0 FA T c h T'. assert (T2 := twin_trans _ _ _ T' T). split; [apply (proj1 FA), T2|].
  exact (twin_trans _ _ _ (fair_step u c h FA (proj1 T')) T').
Qed.

Lemma cat_twin : forall h h', twin (cat h) (cat h').
Proof. intros h h'. exact (conj (cat_current h) (conj (cat_current h') (conj eq_refl (conj eq_refl eq_refl)))). Qed.

Lemma set_cat : forall c h, twin c (cat 0) -> twin_h (c3_set_tension c h) (cat h).
Proof.
  intros c h T. split; [|reflexivity]. eapply twin_trans; [apply set_tension_self, T|]. eapply twin_trans; [exact T|]. apply cat_twin.
Qed.

Lemma update_length : forall h, fst (UpdateCatenaryLength (cat 0) h) = flength h.
Proof.
  intros h. exact (num_answer _ _ Q3Length _ _ (set_cat (cat 0) h (cat_twin 0 0)) eq_refl eq_refl).
Qed.

Lemma update_sag : forall p h : R, fst (UpdateCatenarySag (N := RNum) p (cat 0) h) = quantity TgSag p (cat h).
Proof.
  intros p h. unfold UpdateCatenarySag, quantity. cbn [fst]. assert (T := set_cat (cat 0) h (cat_twin 0 0)). rn.
  destruct (Reqb p (-1)) eqn:E; destruct (Req_EM_T p (-1)) as [E'|E'].
  - exact (num_answer _ _ Q3Sag _ _ T eq_refl eq_refl).
  - apply Reqb_true in E. contradiction.
  - apply Reqb_false in E. contradiction.
  - exact (num_answer _ _ (Q3SagAt (N := RNum) p) _ _ T eq_refl eq_refl).
Qed.

Lemma update_tension : forall p h : R, fst (UpdateCatenaryTension (N := RNum) p (cat 0) h) = quantity TgTension p (cat h).
Proof.
  intros p h. unfold UpdateCatenaryTension, quantity. cbn [fst]. assert (T := set_cat (cat 0) h (cat_twin 0 0)). rn.
  destruct (Reqb p (-1)) eqn:E; destruct (Req_EM_T p (-1)) as [E'|E'].
  - exact (num_answer _ _ Q3TensionMax _ _ T eq_refl eq_refl).
  - apply Reqb_true in E. contradiction.
  - apply Reqb_false in E. contradiction.
  - exact (num_answer _ _ (Q3Tension (N := RNum) p) _ _ T eq_refl eq_refl).
Qed.

Lemma fits_ext : forall u c f g, (forall h, f h = g h) -> fits u c f -> fits u c g.
Proof. intros u c f g E H c' h T. rewrite <- E. apply H, T. Qed.

(** ** The solutions *)
Lemma solve_length : forall (v : R) c, twin c (cat 0) -> inputs_ok ->
  let r := SolveFromLength (N := RNum) v c in fst r = true ->
  c3_tension_horizontal (snd r) = @ferr RNum \/
  Rabs (flength (c3_tension_horizontal (snd r)) - v) <= / Vector3d_Magnitude w / 100.
Proof.
  intros v c T O r H. unfold r, SolveFromLength in *. clear r.
  assert (F0 : fits UpdateCatenaryLength c flength) by (eapply fits_ext; [apply update_length|]; apply fits_fair; [apply fair_length|exact T]).
  assert (M : tension_minimum c = Vector3d_Magnitude sp / 2 * Vector3d_Magnitude w).
  { destruct T as (_ & _ & A & B & _). unfold tension_minimum, c2_ConstantMinimum. rewrite A, B. rn. reflexivity. }
  rewrite M in *. set (x0 := Vector3d_Magnitude sp / 2 * Vector3d_Magnitude w) in *.
  destruct (F0 c x0 (twin_refl c (proj1 T))) as (E1 & T1).
  destruct (UpdateCatenaryLength c x0) as [y1 c1]. cbn [fst snd] in E1, T1. subst y1.
  destruct (fleb (n := RNum) v _); [discriminate|]. destruct (fltb (n := RNum) (flength x0) v) eqn:L; [discriminate|].
  revert L. rn. intros L. apply Rltb_false in L.
  rewrite flit_R in *. set (x1 := x0 * (IZR 110 * powerRZ 10 (-2))) in *.
  assert (T1' := twin_trans _ _ _ T1 T).
  assert (F1 : fits UpdateCatenaryLength c1 flength) by (eapply fits_ext; [apply update_length|]; apply fits_fair; [apply fair_length|exact T1']).
  destruct (F1 c1 x1 (twin_refl c1 (proj1 T1))) as (E2 & T2).
  destruct (UpdateCatenaryLength c1 x1) as [y2 c2]. cbn [fst snd] in E2, T2. subst y2.
  assert (T2' := twin_trans _ _ _ T2 T1').
  assert (F2 : fits UpdateCatenaryLength c2 flength) by (eapply fits_ext; [apply update_length|]; apply fits_fair; [apply fair_length|exact T2']).
  assert (X0 : 0 < x0).
  { assert (U := cat_usable 1 O Rlt_0_1). unfold x0.
    replace (Vector3d_Magnitude sp : R) with (S3 (cat 1)) by (symmetry; exact (mags (cat 1) U)).
    replace (Vector3d_Magnitude w : R) with (W3 (cat 1)) by (symmetry; exact (magw (cat 1) U)).
    assert (A := S3_pos _ U). assert (B := W3_pos _ U). nra. }
  assert (X1 : x0 < x1) by (unfold x1; simpl; lra).
  destruct (falling_close flength x0 (/ Vector3d_Magnitude w) v (flength_falls O) UpdateCatenaryLength c2
    (mkPoint2d (N := RNum) x0 (flength x0)) (mkPoint2d (N := RNum) x1 (flength x1)) F2 (proj1 T2) eq_refl eq_refl (Rle_refl _) X1 L H) as [A|(_ & A)];
    [left; exact A|right; exact A].
Qed.

Lemma solve_sag : forall (p v : R) c, twin c (cat 0) -> inputs_ok -> let r := SolveFromSag (N := RNum) p v c in fst r = true ->
  c3_tension_horizontal (snd r) = @ferr RNum \/
  (secant_close (fun h => quantity TgSag p (cat h)) v (1 / 100) (c3_tension_horizontal (snd r)) /\
   (p = -1 -> Rabs (c3_Sag (cat (c3_tension_horizontal (snd r))) - v) <= 4 / 3 / Vector3d_Magnitude w / 100)).
Proof.
  intros p v c T O r H. unfold r, SolveFromSag in *. clear r.
  assert (FF : forall c, twin c (cat 0) -> fits (UpdateCatenarySag (N := RNum) p) c (fun h => quantity TgSag p (cat h))).
  { intros c' T'. eapply fits_ext; [apply update_sag|]. apply fits_fair; [apply fair_sag|exact T']. }
  assert (M : tension_minimum c = Vector3d_Magnitude sp / 2 * Vector3d_Magnitude w).
  { destruct T as (_ & _ & A & B & _). unfold tension_minimum, c2_ConstantMinimum. rewrite A, B. rn. reflexivity. }
  rewrite M in *. set (x0 := Vector3d_Magnitude sp / 2 * Vector3d_Magnitude w) in *.
  destruct (FF c T c x0 (twin_refl c (proj1 T))) as (E1 & T1).
  destruct (UpdateCatenarySag (N := RNum) p c x0) as [y1 c1]. cbn [fst snd] in E1, T1. subst y1.
  destruct (fltb (n := RNum) _ v) eqn:L; [discriminate|].
  revert L. rn. intros L. apply Rltb_false in L.
  assert (T1' := twin_trans _ _ _ T1 T). rewrite flit_R in *. set (x1 := x0 * (IZR 110 * powerRZ 10 (-2))) in *.
  destruct (FF c1 T1' c1 x1 (twin_refl c1 (proj1 T1))) as (E2 & T2).
  destruct (UpdateCatenarySag (N := RNum) p c1 x1) as [y2 c2]. cbn [fst snd] in E2, T2. subst y2.
  assert (F2 := FF c2 (twin_trans _ _ _ T2 T1')).
  destruct (between_close _ _ _ _ (mkPoint2d (N := RNum) x0 (quantity TgSag p (cat x0))) (mkPoint2d (N := RNum) x1 (quantity TgSag p (cat x1)))
    F2 (proj1 T2) eq_refl eq_refl H) as [A|A]; [left; exact A|].
  destruct (Req_EM_T p (-1)) as [E|E]; [|right; split; [exact A|intros E'; contradiction]].
  assert (Q : forall h, quantity TgSag p (cat h) = c3_Sag (cat h)).
  { intros h. unfold quantity. destruct (Req_EM_T p (-1)) as [_|N]; [reflexivity|contradiction]. }
  destruct (span_facts O) as (_ & _ & PS & PW & _). assert (X0 : 0 < x0) by (unfold x0; nra).
  assert (X1 : x0 < x1) by (unfold x1; simpl; lra).
  assert (FA : forall x y : R, x0 <= x -> x < y -> 0 < quantity TgSag p (cat x) - quantity TgSag p (cat y) <= 4 / 3 / Vector3d_Magnitude w * (y - x)).
  { intros x y Hx Hy. rewrite !Q. apply (fsag_falls O); assumption. }
  destruct (falling_close (fun h => quantity TgSag p (cat h)) x0 (4 / 3 / Vector3d_Magnitude w) v FA (UpdateCatenarySag (N := RNum) p) c2
    (mkPoint2d (N := RNum) x0 (quantity TgSag p (cat x0))) (mkPoint2d (N := RNum) x1 (quantity TgSag p (cat x1)))
    F2 (proj1 T2) eq_refl eq_refl (Rle_refl _) X1 L H) as [B|(_ & B)].
  - left. exact B.
  - right. split; [exact A|]. intros _. rewrite Q in B. exact B.
Qed.

Lemma solve_tension : forall (p v : R) c, twin c (cat 0) -> inputs_ok -> let r := SolveFromTension (N := RNum) p v c in fst r = true ->
  c3_tension_horizontal (snd r) = @ferr RNum \/
  (secant_close (fun h => quantity TgTension p (cat h)) v (1 / 100) (c3_tension_horizontal (snd r)) /\
   (at_end p -> Rabs (quantity TgTension p (cat (c3_tension_horizontal (snd r))) - v) <= Vector3d_Magnitude sp / v3x sp / 100)).
Proof.
  intros p v c T O r H. unfold r, SolveFromTension in *. clear r.
  assert (FF : forall c, twin c (cat 0) -> fits (UpdateCatenaryTension (N := RNum) p) c (fun h => quantity TgTension p (cat h))).
  { intros c' T'. eapply fits_ext; [apply update_tension|]. apply fits_fair; [apply fair_tension|exact T']. }
  assert (M : tension_minimum c = Vector3d_Magnitude sp / 2 * Vector3d_Magnitude w).
  { destruct T as (_ & _ & A & B & _). unfold tension_minimum, c2_ConstantMinimum. rewrite A, B. rn. reflexivity. }
  rewrite M in *. set (x0 := Vector3d_Magnitude sp / 2 * Vector3d_Magnitude w) in *.
  destruct (FF c T c x0 (twin_refl c (proj1 T))) as (E1 & T1).
  destruct (UpdateCatenaryTension (N := RNum) p c x0) as [y1 c1]. cbn [fst snd] in E1, T1. subst y1.
  destruct (fltb (n := RNum) v _) eqn:L; [discriminate|].
  revert L. rn. intros L. apply Rltb_false in L.
  assert (T1' := twin_trans _ _ _ T1 T).
  destruct (FF c1 T1' c1 v (twin_refl c1 (proj1 T1))) as (E2 & T2).
  destruct (UpdateCatenaryTension (N := RNum) p c1 v) as [y2 c2]. cbn [fst snd] in E2, T2. subst y2.
  assert (F2 := FF c2 (twin_trans _ _ _ T2 T1')).
  destruct (between_close _ _ _ _ (mkPoint2d (N := RNum) x0 (quantity TgTension p (cat x0))) (mkPoint2d (N := RNum) v (quantity TgTension p (cat v)))
    F2 (proj1 T2) eq_refl eq_refl H) as [A|A]; [left; exact A|].
  assert (DE : at_end p \/ ~ at_end p).
  { unfold at_end. destruct (Req_EM_T p (-1)); destruct (Req_EM_T p 0); destruct (Req_EM_T p 1); tauto. }
  destruct DE as [E|E]; [|right; split; [exact A|intros E'; contradiction]].
  destruct (span_facts O) as (_ & _ & PS & PW & _). assert (X0 : 0 < x0) by (unfold x0; nra).
  destruct (end_rises p E O) as (d & D1 & D2). fold x0 in D1, D2.
  destruct (end_tension p E O) as (s & ET). destruct (ET x0 X0) as (_ & G).
  destruct (rising_close (fun h => quantity TgTension p (cat h)) x0 (Vector3d_Magnitude sp / v3x sp) v d D1 D2 (UpdateCatenaryTension (N := RNum) p) c2
    (mkPoint2d (N := RNum) x0 (quantity TgTension p (cat x0))) (mkPoint2d (N := RNum) v (quantity TgTension p (cat v)))
    F2 (proj1 T2) eq_refl eq_refl (Rle_refl _)) as [B|(_ & B)].
  - cbn [p2x]. lra.
  - exact L.
  - exact H.
  - left. exact B.
  - right. split; [exact A|]. intros _. exact B.
Qed.

(** ** The first answer of a solver *)
Lemma first_answer : forall p t v, let s := cs_fresh (N := RNum) p sp t v w in
  let h : R := fst (cs_TensionHorizontal s) in
  h <> -999999 ->
  c3_Validate (cat h) = true /\
  (forall q, c3_answer (fst (cs_Catenary s)) q = c3_answer (cat h) q) /\
  match t with
  | TgConstant => c3_Constant (cat h) = v
  | TgLength => Rabs (c3_Length (cat h) - v) <= / Vector3d_Magnitude w / 100
  | TgSag => secant_close (fun h => quantity TgSag p (cat h)) v (1 / 100) h /\
      (p = -1 -> Rabs (c3_Sag (cat h) - v) <= 4 / 3 / Vector3d_Magnitude w / 100)
  | TgTension => secant_close (fun h => quantity TgTension p (cat h)) v (1 / 100) h /\
      (at_end p -> Rabs (quantity TgTension p (cat h) - v) <= Vector3d_Magnitude sp / v3x sp / 100)
  | TgNull => False
  end.
Proof.
  intros p t v s h Hh.
  assert (I : c3_current (cs_catenary s)) by (intros U; discriminate U).
  assert (TW : twin (cs_catenary s) (cat 0)) by (exact (conj I (conj (cat_current 0) (conj eq_refl (conj eq_refl eq_refl))))).
  assert (EN : cs_ensure s = cs_Update s) by reflexivity.
  assert (B : fst (cs_Update s) = true).
  { destruct (fst (cs_Update s)) eqn:B; [reflexivity|]. exfalso. apply Hh. unfold h, cs_TensionHorizontal. rewrite EN.
    destruct (cs_Update s) as [b' s']. cbn [fst] in *. subst b'. unfold ferr. cbn [fst]. rn. reflexivity. }
  assert (EH : h = c3_tension_horizontal (cs_catenary (snd (cs_Update s)))).
  { unfold h, cs_TensionHorizontal. rewrite EN. destruct (cs_Update s) as [b' s']. cbn [fst snd] in *. subst b'. reflexivity. }
  assert (EC : fst (cs_Catenary s) = cs_catenary (snd (cs_Update s))).
  { unfold cs_Catenary. rewrite EN. destruct (cs_Update s) as [b' s']. cbn [fst snd] in *. subst b'. reflexivity. }
  assert (K := Update_kin s I). destruct K as (_ & _ & _ & K).
  assert (TC : twin_h (cs_catenary (snd (cs_Update s))) (cat h)).
  { split; [|exact (eq_sym EH)]. eapply twin_trans; [exact K|]. eapply twin_trans; [exact TW|]. apply cat_twin. }
  assert (V : c3_Validate (cat h) = true).
  { assert (Q := twin_answer _ _ Q3Validate TC). cbn [c3_answer] in Q. injection Q as Q. rewrite <- Q. apply Update_valid; assumption. }
  split; [exact V|]. split; [intros q; rewrite EC; apply twin_answer, TC|].
  destruct (cat_Validate h V) as (O & Hpos & _).
  clear EN. unfold cs_Update in B, EH. change (cs_type s) with t in *. change (cs_value s) with v in *. change (cs_position s) with p in *.
  assert (AV : forall c : Catenary3d RNum, c3_current c -> c3_tension_horizontal (c3_after_Validate c) = c3_tension_horizontal c)
    by (intros c J; apply (after_Validate_twin c J)).
  destruct t.
  - unfold c3_Constant, c2_Constant.
    change (c2_tension (c3_catenary_2d (c3_ensure (cat h)))) with h. rewrite (d_weight (cat h) (cat_current h) (cat_usable h O Hpos)).
    cbn [SolveFromConstant snd cs_with cs_catenary] in EH. rewrite AV in EH by (apply set_tension_current, I).
    change (c3_tension_horizontal (c3_set_tension ?c ?h)) with h in EH.
    change (c3_weight (cs_catenary s)) with (c3_weight (cat h)) in EH.
    rewrite (magw (cat h) (cat_usable h O Hpos)) in EH.
    assert (WP := W3_pos (cat h) (cat_usable h O Hpos)). revert EH. rn. generalize dependent (W3 (cat h)).
    intros W3' WP EH. rewrite EH. req. field. lra.
  - assert (C := length_current v (cs_catenary s) I). assert (SL := solve_length v (cs_catenary s) TW O).
    destruct (SolveFromLength (N := RNum) v (cs_catenary s)) as [[] c]; [|discriminate]. cbn [fst snd cs_with cs_catenary] in *.
    rewrite AV in EH by apply C. rewrite <- EH in SL.
    destruct (SL eq_refl) as [S|S]; [|exact S]. exfalso. apply Hh. rewrite S. unfold ferr. rn. reflexivity.
  - discriminate.
  - assert (C := sag_current p v (cs_catenary s) I). assert (SL := solve_sag p v (cs_catenary s) TW O).
    destruct (SolveFromSag (N := RNum) p v (cs_catenary s)) as [[] c]; [|discriminate]. cbn [fst snd cs_with cs_catenary] in *.
    rewrite AV in EH by apply C. rewrite <- EH in SL.
    destruct (SL eq_refl) as [S|S]; [|exact S]. exfalso. apply Hh. rewrite S. unfold ferr. rn. reflexivity.
  - assert (C := tension_current p v (cs_catenary s) I). assert (SL := solve_tension p v (cs_catenary s) TW O).
    destruct (SolveFromTension (N := RNum) p v (cs_catenary s)) as [[] c]; [|discriminate]. cbn [fst snd cs_with cs_catenary] in *.
    rewrite AV in EH by apply C. rewrite <- EH in SL.
    destruct (SL eq_refl) as [S|S]; [|exact S]. exfalso. apply Hh. rewrite S. unfold ferr. rn. reflexivity.
Qed.
End Target.
