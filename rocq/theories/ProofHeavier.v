(** Two catenaries of the same span and horizontal tension: the heavier one sags more. *)
From Coq Require Import ZArith Bool List Reals Lra Lia.
From Verif Require Import Num NumFacts ModelBase ModelCatenary SpecCatenary ProofReal ProofVector HypFacts ProofCatenary
  SpecCatenary3 ProofCatenary3 SpecScale3 ProofScale3 ModelSolver SpecSolver ProofSolver ProofSolverReal ProofSolverRate
  ProofSolverTarget ProofSolverCases ProofSpan ProofTight.
Import ListNotations.
Open Scope R_scope.

(** A history leaves the answers of a new object. *)
Lemma run_fresh : forall ks, let c := c3_run (@Catenary3d_default RNum) ks in
  let d := c3_fresh ADPositive (c3_spacing c) (c3_tension_horizontal c) (c3_weight c) in
  c3_Validate c = c3_Validate d /\ c3_Length c = c3_Length d /\ c3_Sag c = c3_Sag d /\
  (forall p, c3_Tension c p = c3_Tension d p) /\ c3_TensionMax c = c3_TensionMax d.
Proof.
  intros ks c d. assert (R0 := run_twin ks). cbv zeta in R0. fold c in R0.
  destruct (turn (c3_direction c) (c3_spacing c) (c3_tension_horizontal c) (c3_weight c)) as (T1 & T2 & T3 & T4 & T5 & T6). fold d in T1, T2, T4, T5, T6.
  assert (A1 : c3_Validate c = c3_Validate (c3_fresh (c3_direction c) (c3_spacing c) (c3_tension_horizontal c) (c3_weight c))).
  { assert (Q := twin_answer _ _ Q3Validate R0). cbn [c3_answer] in Q. injection Q as Q. exact Q. }
  assert (A2 := num_answer _ _ Q3Length _ _ R0 eq_refl eq_refl). assert (A3 := num_answer _ _ Q3Sag _ _ R0 eq_refl eq_refl).
  assert (A4 := fun p => num_answer _ _ (Q3Tension p) _ _ R0 eq_refl eq_refl). assert (A5 := num_answer _ _ Q3TensionMax _ _ R0 eq_refl eq_refl).
  rewrite A1, A2, A3, A5, T1, T2, T4, T6. repeat (split; [reflexivity|]). split; [|reflexivity].
  intros p. rewrite A4. apply T5.
Qed.

(** ** x cosh x / sinh x grows. *)
Lemma sinh_cosh : forall d, 0 < d -> sinh d <= d * cosh d.
Proof.
  intros d H. destruct (MVT_cor2 sinh cosh 0 d H) as (c & E & C); [intros; apply derivable_pt_lim_sinh|].
  rewrite sinh_0 in E. assert (Q := cosh_up c d ltac:(lra)). nra.
Qed.
Lemma coth_up : forall x y, 0 < x < y -> x * (cosh x / sinh x) <= y * (cosh y / sinh y).
Proof.
  intros x y H. assert (SX := sinh_pos x (proj1 H)). assert (SY := sinh_pos y ltac:(lra)).
  assert (DE : exists d, d = y - x) by (eexists; reflexivity). destruct DE as (d & DE). assert (D : 0 < d) by lra.
  assert (A := sinh_cosh d D). assert (B := cosh_up d y ltac:(lra)). assert (G := sinh_gt x (proj1 H)).
  assert (SD := sinh_pos d D). assert (M := sinh_minus y x). rewrite <- DE in M.
  assert (K : x * sinh d <= d * cosh y * sinh x).
  { apply Rle_trans with (sinh x * sinh d); [apply Rmult_le_compat_r; lra|].
    assert (d * cosh d <= d * cosh y) by (apply Rmult_le_compat_l; lra).
    replace (d * cosh y * sinh x) with (sinh x * (d * cosh y)) by ring. apply Rmult_le_compat_l; lra. }
  apply Rmult_le_reg_r with (sinh x * sinh y); [apply Rmult_lt_0_compat; assumption|].
  replace (x * (cosh x / sinh x) * (sinh x * sinh y)) with (x * (sinh y * cosh x)) by (field; lra).
  replace (y * (cosh y / sinh y) * (sinh x * sinh y)) with (y * (cosh y * sinh x)) by (field; lra).
  replace (sinh y * cosh x) with (sinh d + cosh y * sinh x) by lra.
  rewrite DE in K at 2. nra.
Qed.
Lemma cosh_lt : forall x y, 0 < x < y -> cosh x < cosh y.
Proof. intros x y H. assert (T := cosh_tangent_lt x y ltac:(lra)). assert (S := sinh_pos x (proj1 H)). nra. Qed.

(** The mean of the tensions at the ends under [m] times the load. *)
Lemma endmean_heavier : forall a b k m, 0 < a -> 0 < k -> 1 < m -> endmean a b k < m * endmean a b (k / m).
Proof.
  intros a b k m Ha Hk Hm. unfold endmean. set (e := a / 2). assert (He : 0 < e) by (unfold e; lra).
  set (u := Rabs b / 2). assert (Hu : 0 <= u) by (assert (P := Rabs_pos b); unfold u; lra).
  set (x := e / k). assert (Hx : 0 < x) by (apply Rdiv_lt_0_compat; assumption).
  assert (X : e / (k / m) = m * x) by (unfold x; field; lra).
  assert (XX : 0 < x < m * x) by nra.
  assert (C1 := coth_up x (m * x) XX). assert (C2 := cosh_lt x (m * x) XX).
  assert (L : 0 <= leaning e k <= m * leaning e (k / m)).
  { unfold leaning. rewrite X. fold x. assert (P := sinh_pos x Hx). assert (Q := cosh_pos x).
    assert (0 < cosh x / sinh x) by (apply Rdiv_lt_0_compat; assumption). split; [lra|].
    apply Rmult_le_reg_l with x; [exact Hx|]. lra. }
  assert (W : 0 < weighty e k < m * weighty e (k / m)).
  { unfold weighty. rewrite X. fold x. assert (Q := cosh_pos x).
    replace (m * (k / m * cosh (m * x))) with (k * cosh (m * x)) by (field; lra). nra. }
  assert (S : m * sqrt (u * leaning e (k / m) * (u * leaning e (k / m)) + weighty e (k / m) * weighty e (k / m)) =
    sqrt ((u * (m * leaning e (k / m))) * (u * (m * leaning e (k / m))) + (m * weighty e (k / m)) * (m * weighty e (k / m)))).
  { rewrite <- (sqrt_square m) at 1 by lra. rewrite <- sqrt_mult_alt by nra. f_equal. ring. }
  rewrite S. apply sqrt_lt_1_alt.
  assert (A1 : 0 <= u * leaning e k <= u * (m * leaning e (k / m))) by nra. nra.
Qed.

(** The tensions at the ends. *)
Section Ends.
Variables sp w : Vector3d RNum.
Hypothesis O : inputs_ok sp w.
Let cat (h : R) : Catenary3d RNum := c3_fresh ADPositive sp h w.
Let a := a3 (cat 1). Let b := b3 (cat 1). Let W := W3 (cat 1).
Lemma ends_R : forall h, 0 < h ->
  (c3_Tension (cat h) (0 : R) : R) = W * (endmean a b (h / W) - b / 2) /\
  (c3_Tension (cat h) (1 : R) : R) = W * (endmean a b (h / W) + b / 2) /\
  (c3_TensionMax (cat h) : R) = W * (endmean a b (h / W) + Rabs b / 2).
Proof.
  intros h Hh. assert (U := cat_usable sp w h O Hh). assert (I := cat_current sp w h). fold (cat h) in U, I.
  assert (A := plane_left _ (d_current _ I) (d_h_pos _ I U) (d_w_pos _ I U) (d_a_pos _ I U)).
  assert (B := plane_right _ (d_current _ I) (d_h_pos _ I U) (d_w_pos _ I U) (d_a_pos _ I U)).
  assert (C := tensionmax_R _ (d_current _ I)).
  unfold ck in A, B. rewrite (d_spacing _ I U), (d_weight _ I U), (d_tension _ I) in A, B. rewrite (d_spacing _ I U) in C.
  assert (A' : (c3_Tension (cat h) (0 : R) : R) = W * (endmean a b (h / W) - b / 2)) by exact A.
  assert (B' : (c3_Tension (cat h) (1 : R) : R) = W * (endmean a b (h / W) + b / 2)) by exact B.
  assert (C' : (c3_TensionMax (cat h) : R) = if Rle_dec b 0 then c3_Tension (cat h) (0 : R) else c3_Tension (cat h) (1 : R)) by exact C.
  clearbody a b W. clear A B C. split; [exact A'|]. split; [exact B'|]. rewrite C'. destruct Rle_dec as [L|L].
  - rewrite Rabs_left1 by exact L. rewrite A'. field.
  - rewrite Rabs_pos_eq by lra. exact B'.
Qed.
End Ends.

(** ** The load multiplied *)
Section Heavier.
Variables sp w : Vector3d RNum.
Variables h k : R.
Let w' := mul3 k w.
Let c := c3_fresh ADPositive sp (h : RNum) w.
Let c' := c3_fresh ADPositive sp (h : RNum) w'.
Let m := c3_fresh ADPositive sp (h / k : RNum) w.
Hypothesis V : c3_Validate c = true.
Hypothesis V' : c3_Validate c' = true.
Hypothesis K : 1 < k.

Lemma middle : similar3 1 k m c'.
Proof.
  split; [reflexivity| | |].
  - repeat split; change (F RNum) with R; cbn; lra.
  - change ((h : R) = k * (h / k)). field. lra.
  - replace (k / 1) with k by field. repeat split; reflexivity.
Qed.
Lemma middle_usable : usable3 m /\ usable3 c'.
Proof.
  destruct (cat_Validate sp w h V) as (O & P & _). destruct (cat_Validate sp w' h V') as (O' & _ & _).
  split; apply cat_usable; try assumption. apply Rdiv_lt_0_compat; lra.
Qed.
Lemma middle_answers : forall q, asks_shape3 q -> c3_answer c' q = times3 (factor3 1 k q) (c3_answer m q).
Proof.
  destruct middle_usable as (U & U').
  apply (similar3_answers m c' 1 k); try assumption; try lra; try apply cat_current. exact middle.
Qed.
Let num (x : @Answer RNum) : R := match x with ANum x => x | _ => 0 end.
Lemma middle_valid : Vector3d_Magnitude sp / 2 * Vector3d_Magnitude w <= h / k.
Proof.
  destruct (cat_Validate sp w' h V') as (_ & _ & Q). unfold w' in Q. rewrite mag3_multiple in Q by lra.
  apply Rmult_le_reg_r with k; [lra|]. replace (h / k * k) with h by (field; lra). change (F RNum) with R in *. lra.
Qed.

Lemma heavier_fresh :
  0 < c3_Length c' - c3_Length c <= / Vector3d_Magnitude w * (h - h / k) /\
  0 < c3_Sag c' - c3_Sag c <= 4 / 3 / Vector3d_Magnitude w * (h - h / k) /\
  0 < c3_TensionMax c' - c3_TensionMax c /\
  0 < (c3_Tension c' (0 : R) + c3_Tension c' (1 : R)) - (c3_Tension c (0 : R) + c3_Tension c (1 : R)).
Proof.
  destruct (cat_Validate sp w h V) as (O & P & _). assert (Q := middle_valid).
  assert (B : h / k < h). { apply Rmult_lt_reg_r with k; [lra|]. unfold Rdiv. rewrite Rmult_assoc, Rinv_l by lra. nra. }
  assert (PK : 0 < h / k) by (apply Rdiv_lt_0_compat; lra).
  assert (E1 := f_equal num (middle_answers Q3Length I)). assert (E2 := f_equal num (middle_answers Q3Sag I)).
  assert (E3 := f_equal num (middle_answers Q3TensionMax I)).
  assert (E4 := f_equal num (middle_answers (Q3Tension (N := RNum) (0 : R)) I)).
  assert (E5 := f_equal num (middle_answers (Q3Tension (N := RNum) (1 : R)) I)).
  cbn [c3_answer times3 num factor3] in E1, E2, E3, E4, E5. change (F RNum) with R in *.
  assert (L := flength_falls sp w O (h / k) h Q B). assert (S := fsag_falls sp w O (h / k) h Q B).
  assert (T := ends_R sp w O h P). assert (T' := ends_R sp w O (h / k) PK). cbv zeta in T, T'.
  unfold flength in L. fold c in L, S, T. fold m in L, S, T'. change (F RNum) with R in *.
  rewrite E1, E2, E3, E4, E5, !Rmult_1_l. split; [exact L|]. split; [exact S|].
  destruct T as (T0 & T1 & T2). destruct T' as (T0' & T1' & T2').
  set (a := a3 (c3_fresh ADPositive sp 1 w)) in *. set (b := b3 (c3_fresh ADPositive sp 1 w)) in *. set (W := W3 (c3_fresh ADPositive sp 1 w)) in *.
  change (c3_Tension c 0 = W * (endmean a b (h / W) - b / 2)) in T0. change (c3_Tension c 1 = W * (endmean a b (h / W) + b / 2)) in T1.
  change (c3_TensionMax c = W * (endmean a b (h / W) + Rabs b / 2)) in T2.
  change (c3_Tension m 0 = W * (endmean a b (h / k / W) - b / 2)) in T0'. change (c3_Tension m 1 = W * (endmean a b (h / k / W) + b / 2)) in T1'.
  change (c3_TensionMax m = W * (endmean a b (h / k / W) + Rabs b / 2)) in T2'.
  rewrite T0, T1, T2, T0', T1', T2'.
  assert (U := cat_usable sp w 1 O Rlt_0_1). assert (AP : 0 < a) by exact (a3_pos _ U). assert (WP : 0 < W) by exact (W3_pos _ U). clearbody a b W.
  assert (G := endmean_heavier a b (h / W) k AP ltac:(apply Rdiv_lt_0_compat; assumption) K).
  replace (h / W / k) with (h / k / W) in G by (field; lra).
  set (e := endmean a b (h / W)) in *. set (e' := endmean a b (h / k / W)) in *. assert (J := Rabs_pos b).
  assert (G1 : 0 < W * (k * e' - e)) by (apply Rmult_lt_0_compat; lra).
  assert (G2 : 0 <= W * (k - 1) * (Rabs b / 2)) by (repeat apply Rmult_le_pos; lra).
  split; lra.
Qed.
End Heavier.

(** ** The statement of the property *)
Lemma heavier : forall ks ks' (k : R), let c := c3_run (@Catenary3d_default RNum) ks in let c' := c3_run (@Catenary3d_default RNum) ks' in
  c3_Validate c = true -> c3_Validate c' = true -> c3_spacing c = c3_spacing c' ->
  c3_tension_horizontal c = c3_tension_horizontal c' -> multiple3 k (c3_weight c) (c3_weight c') -> 1 < k ->
  let h := c3_tension_horizontal c in let w := Vector3d_Magnitude (c3_weight c) in
  0 < c3_Length c' - c3_Length c <= h / w * (1 - / k) /\
  0 < c3_Sag c' - c3_Sag c <= 4 / 3 * (h / w) * (1 - / k) /\
  0 < c3_TensionMax c' - c3_TensionMax c /\
  0 < (c3_Tension c' (0 : R) + c3_Tension c' (1 : R)) - (c3_Tension c (0 : R) + c3_Tension c (1 : R)).
Proof.
  intros ks ks' k c c' V V' S H W K h w.
  destruct (run_fresh ks) as (F1 & F2 & F3 & F4 & F5). destruct (run_fresh ks') as (G1 & G2 & G3 & G4 & G5).
  fold c in F1, F2, F3, F4, F5. fold c' in G1, G2, G3, G4, G5.
  apply multiple_mul in W. rewrite <- S, <- H, W in G1, G2, G3, G4, G5. rewrite F1 in V. rewrite G1 in V'. rewrite F2, F3, F5, G2, G3, G5, !F4, !G4.
  fold h in V, V' |- *. assert (P := heavier_fresh (c3_spacing c) (c3_weight c) h k V V' K). fold w in P.
  change (F RNum) with R in *. unfold Rdiv in *.
  replace (h * / w * (1 - / k)) with (/ w * (h - h * / k)) by ring.
  replace (4 * / 3 * (h * / w) * (1 - / k)) with (4 * / 3 * / w * (h - h * / k)) by ring. exact P.
Qed.
