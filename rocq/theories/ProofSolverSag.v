(** A sag found in one pass, in exact arithmetic. *)
From Coq Require Import ZArith Bool List Reals Lra Lia.
From Verif Require Import Num NumFacts ModelBase ModelCatenary SpecCatenary ProofReal ProofVector HypFacts ProofCatenary
  SpecCatenary3 ProofCatenary3 ModelSolver SpecSolver ProofSolver ProofSolverReal ProofSolverRate ProofSolverTarget ProofSolverCases ProofSpan.
Import ListNotations.
Open Scope R_scope.

Lemma weighty_convex : forall e x y, 0 < e -> 0 < x -> x < y -> 2 * weighty e ((x + y) / 2) < weighty e x + weighty e y.
Proof.
  intros e x y He Hx Hy. set (z := (x + y) / 2). assert (Z : x < z < y) by (unfold z; lra). unfold weighty.
  assert (N1 : e / z <> e / x).
  { intros Q. assert (X : e * x = e * z). { replace (e * x) with (e / z * z * x) by (field; lra). rewrite Q. field. lra. } nra. }
  assert (T1 := cosh_tangent_lt (e / z) (e / x) N1). assert (T2 := cosh_tangent (e / z) (e / y)).
  apply Rmult_lt_compat_l with (r := x) in T1; [|lra]. apply Rmult_le_compat_l with (r := y) in T2; [|lra].
  replace (x * (cosh (e / z) + (e / x - e / z) * sinh (e / z))) with (x * cosh (e / z) + (e - x * (e / z)) * sinh (e / z)) in T1 by (field; lra).
  replace (y * (cosh (e / z) + (e / y - e / z) * sinh (e / z))) with (y * cosh (e / z) + (e - y * (e / z)) * sinh (e / z)) in T2 by (field; lra).
  assert (E : e - x * (e / z) + (e - y * (e / z)) = 0). { replace (e - x * (e / z) + (e - y * (e / z))) with (e / z * (2 * z - (x + y))) by (field; lra). unfold z at 2. field. lra. }
  set (s := sinh (e / z)) in *. set (c := cosh (e / z)) in *. unfold z at 1.
  assert (Q : (e - x * (e / z)) * s + (e - y * (e / z)) * s = 0) by (rewrite <- Rmult_plus_distr_r, E; ring).
  replace (2 * ((x + y) / 2 * c)) with (x * c + y * c) by field. lra.
Qed.

Section Light.
Variables a w : R.
Hypothesis Ha : 0 < a.
Hypothesis Hw : 0 < w.

Lemma level_sag : forall h, 0 < h -> (c3_Sag (level a w h) : R) = weighty (a / 2) (h / w) - h / w.
Proof.
  intros h Hh. set (c := level a w h). assert (U : usable3 c) by (apply (cat_usable _ _ h (level_ok a w Ha Hw)); lra).
  assert (I : c3_current c) by (intros V; discriminate V). unfold c3_Sag. set (d := c3_catenary_2d (c3_ensure c)).
  rewrite (plane_sag d (d_current c I) (d_h_pos c I U) (d_w_pos c I U) (d_a_pos c I U)).
  pose proof (d_tension c I) as T. fold d in T. change (c3_tension_horizontal c) with h in T.
  pose proof (d_spacing c I U) as S. fold d in S. destruct (level_a a w Ha Hw h Hh) as (W & B & A). fold c in W, B, A. rewrite B, A in S.
  pose proof (d_weight c I U) as WE. fold d in WE. rewrite W in WE.
  assert (CU : cu d = 0). { unfold cu. rewrite S. cbn [v2x v2y]. replace (0 * cz d / (a * sinh (cz d))) with 0 by (unfold Rdiv; ring). transitivity (arcsinh (sinh 0)); [rewrite sinh_0; reflexivity|apply arcsinh_sinh]. }
  assert (Z0 : arcsinh (0 / a) = 0). { replace (0 / a) with (sinh 0) by (rewrite sinh_0; field; lra). apply arcsinh_sinh. }
  rewrite S. cbn [v2x v2y]. rewrite Z0, CU. unfold drop. rewrite sinh_0, cosh_0, Rminus_0_l, cosh_neg.
  unfold weighty, cz, ck. rewrite S, T, WE. cbn [v2x]. ring.
Qed.

Hypothesis Haw : a / 2 * w = 2 / 10.
Definition middle_sag : R := (c3_Sag (level a w (2 / 10)) + c3_Sag (level a w (22 / 100))) / 2.

Lemma middle_found : forall s : CatenarySolver RNum, c3_current (cs_catenary s) -> cs_is_updated s = false ->
  (cs_position s : R) = -1 -> cs_type s = TgSag -> (cs_value s : R) = middle_sag -> c3_spacing (cs_catenary s) = span a ->
  c3_weight (cs_catenary s) = hang w -> c3_direction (cs_catenary s) = ADPositive ->
  (fst (cs_TensionHorizontal s) : R) = 21 / 100.
Proof.
  intros s I UPD EP ET EV ESP EWE ED.
  set (cat := fun h : R => c3_fresh ADPositive (span a) (h : RNum) (hang w)).
  assert (MAG := level_mags a w Ha Hw). destruct MAG as (MA & MW).
  set (f := fun h => quantity TgSag (cs_position s) (cat h)).
  assert (FQ : forall h, f h = c3_Sag (level a w h)).
  { intros h. unfold f, quantity. destruct (Req_EM_T (cs_position s) (-1)) as [_|N]; [reflexivity|contradiction]. }
  assert (EVf : (cs_value s : R) = (f (2 / 10) + f (22 / 100)) / 2) by (rewrite !FQ; exact EV).
  assert (F1 : f (22 / 100) < f (2 / 10)).
  { rewrite !FQ. assert (Q := fsag_falls _ _ (level_ok a w Ha Hw) (2 / 10) (22 / 100)). cbn zeta in Q. rewrite MA, MW, Haw in Q.
    specialize (Q ltac:(lra) ltac:(lra)). apply Rminus_gt_0_lt. exact (proj1 Q). }
  assert (F2 : f ((2 / 10 + 22 / 100) / 2) <> (f (2 / 10) + f (22 / 100)) / 2).
  { rewrite !FQ, !level_sag by lra.
    assert (P : forall x, 0 < x -> 0 < x / w) by (intros; apply Rdiv_lt_0_compat; assumption).
    assert (G := weighty_convex (a / 2) (2 / 10 / w) (22 / 100 / w) ltac:(lra) (P (2 / 10) ltac:(lra))
      ltac:(apply Rmult_lt_compat_r; [apply Rinv_0_lt_compat; exact Hw|lra])).
    replace ((2 / 10 + 22 / 100) / 2 / w) with ((2 / 10 / w + 22 / 100 / w) / 2) by (field; lra). lra. }
  assert (TW : twin (cs_catenary s) (cat 0)).
  { refine (conj I (conj _ (conj ESP (conj EWE ED)))). intros U; discriminate U. }
  assert (FF : forall c, twin c (cat 0) -> fits (UpdateCatenarySag (N := RNum) (cs_position s)) c f).
  { intros c T. eapply fits_ext; [apply update_sag|]. apply fits_fair; [apply fair_sag|exact T]. }
  assert (R0 : exists c, SolveFromSag (N := RNum) (cs_position s) (cs_value s) (cs_catenary s) = (true, c) /\ (c3_tension_horizontal c : R) = 21 / 100).
  { unfold SolveFromSag.
    assert (M : tension_minimum (cs_catenary s) = 2 / 10).
    { unfold tension_minimum, c2_ConstantMinimum. rewrite ESP, EWE, MA, MW. rn. exact Haw. }
    rewrite M. destruct (FF _ TW (cs_catenary s) (2 / 10) (twin_refl _ I)) as (E1 & T1).
    destruct (UpdateCatenarySag (N := RNum) (cs_position s) (cs_catenary s) (2 / 10)) as [y1 c1]. cbn [fst snd] in E1, T1. subst y1.
    rn. rewrite (proj2 (Rltb_false _ _)) by (rewrite EVf; lra).
    rewrite flit_R. replace (2 / 10 * (IZR 110 * powerRZ 10 (-2))) with (22 / 100) by (simpl; lra).
    assert (T1' := twin_trans _ _ _ T1 TW).
    destruct (FF _ T1' c1 (22 / 100) (twin_refl _ (proj1 T1))) as (E2 & T2).
    destruct (UpdateCatenarySag (N := RNum) (cs_position s) c1 (22 / 100)) as [y2 c2]. cbn [fst snd] in E2, T2. subst y2.
    destruct (one_pass (UpdateCatenarySag (N := RNum) (cs_position s)) c2 f (2 / 10) (22 / 100)
      (FF c2 (twin_trans _ _ _ T2 T1')) (proj1 T2) ltac:(lra) F1 F2) as (A & B).
    rewrite <- EVf in A, B. destruct (solve_between _ _ _ _ _) as [b c]. cbn [fst snd] in A, B. subst b.
    exists c. split; [reflexivity|]. rewrite B. lra. }
  destruct R0 as (c & EC & HC).
  assert (C := sag_current (N := RNum) (cs_position s) (cs_value s) (cs_catenary s) I). rewrite EC in C. cbn [snd] in C.
  assert (TH : twin_h c (level a w (21 / 100))).
  { split; [|exact HC]. eapply twin_trans; [exact C|]. eapply twin_trans; [exact TW|]. apply cat_twin. }
  assert (V : c3_Validate c = true).
  { assert (Q := twin_answer _ _ Q3Validate TH). cbn [c3_answer] in Q. injection Q as Q. rewrite Q.
    apply level_valid; [exact Ha|exact Hw|lra]. }
  assert (UP : cs_Update s = (true, cs_with s (c3_after_Validate c) true)).
  { unfold cs_Update. rewrite ET, EC, V. reflexivity. }
  unfold cs_TensionHorizontal, cs_ensure. rewrite UPD, UP. cbn [fst cs_with cs_catenary].
  rewrite (proj2 (after_Validate_twin c (proj1 C))). exact HC.
Qed.
End Light.

(** ** A tension found in one pass *)
Lemma weighty_tangent_lt : forall e x z, 0 < e -> 0 < x -> 0 < z -> x <> z -> weighty e z + weighty' e z * (x - z) < weighty e x.
Proof.
  intros e x z He Hx Hz N. unfold weighty, weighty'.
  assert (N1 : e / z <> e / x).
  { intros Q. assert (X : e * x = e * z). { replace (e * x) with (e / z * z * x) by (field; lra). rewrite Q. field. lra. }
    apply Rmult_eq_reg_l in X; lra. }
  assert (T := cosh_tangent_lt (e / z) (e / x) N1).
  apply Rmult_lt_compat_l with (r := x) in T; [|lra].
  replace (x * (cosh (e / z) + (e / x - e / z) * sinh (e / z))) with
    (z * cosh (e / z) + (cosh (e / z) - e / z * sinh (e / z)) * (x - z)) in T by (field; lra).
  exact T.
Qed.

Lemma one_pass_right : forall u c0 (f : R -> R) (t l r : R), fits u c0 f -> c3_current c0 -> 1 / 100 < r - l ->
  let x := next_x f t (mkPoint2d (N := RNum) l (f l)) (mkPoint2d (N := RNum) r (f r)) in
  l < x -> x < r -> x - l <= 1 / 100 -> f x < t ->
  let res := solve_between u t (mkPoint2d (N := RNum) l (f l)) (mkPoint2d (N := RNum) r (f r)) c0 in
  fst res = true /\ (c3_tension_horizontal (snd res) : R) = x.
Proof.
  intros u c0 f t l r FI I LR x XL XR XS FX res. unfold res, solve_between. clear res.
  set (s0 := mkLoopState _ _ _ _ _).
  destruct (pass_moved u c0 f t s0 FI (twin_refl c0 I)) as (M & E & IT & T).
  set (s1 := solve_pass u t s0) in *. change (next_x f t (lo_left s0) (lo_right s0)) with x in *.
  assert (D : Rabs (p2x (lo_left s1) - p2x (lo_right s1)) <= 1 / 100).
  { destruct M as [y H|y H H1|y H H1|y H H1|y H]; change y with x in *; clear y; cbn [lo_left lo_right p2x s0] in *.
    - exfalso. lra.
    - rewrite Rabs_minus_sym, Rabs_pos_eq; lra.
    - exfalso. lra.
    - exfalso. lra.
    - exfalso. assert (Q := H (conj XL XR)). lra. }
  assert (L : solve_loop u t (Z.to_nat 102) s0 = s1).
  { change (Z.to_nat 102) with (S (S (Z.to_nat 100))). cbn [solve_loop]. fold s1.
    replace (_ && (lo_iter s0 <=? 100)%Z)%bool with true.
    2: { symmetry. apply andb_true_intro. split; [|reflexivity]. rn. rewrite flit_R, lit001. apply Rltb_true.
         cbn [lo_left lo_right p2x s0]. rewrite Rabs_minus_sym, Rabs_pos_eq; lra. }
    replace (_ && (lo_iter s1 <=? 100)%Z)%bool with false; [reflexivity|].
    symmetry. apply andb_false_iff. left. rn. rewrite flit_R, lit001. apply Rltb_false. exact D. }
  rewrite L, IT. cbn [fst snd]. split; [reflexivity|]. rewrite E. reflexivity.
Qed.

Section Taut.
Variables a w : R.
Hypothesis Ha : 0 < a.
Hypothesis Hw : 0 < w.

Lemma level_end : forall h, 0 < h -> (c3_Tension (level a w h) (1 : R) : R) = w * weighty (a / 2) (h / w).
Proof.
  intros h Hh. set (c := level a w h). assert (U : usable3 c) by (apply (cat_usable _ _ h (level_ok a w Ha Hw)); lra).
  assert (I : c3_current c) by (intros V; discriminate V). unfold c3_Tension. set (d := c3_catenary_2d (c3_ensure c)).
  rewrite (plane_right d (d_current c I) (d_h_pos c I U) (d_w_pos c I U) (d_a_pos c I U)).
  pose proof (d_tension c I) as T. fold d in T. change (c3_tension_horizontal c) with h in T.
  pose proof (d_spacing c I U) as S. fold d in S. destruct (level_a a w Ha Hw h Hh) as (W & B & A). fold c in W, B, A. rewrite B, A in S.
  pose proof (d_weight c I U) as WE. fold d in WE. rewrite W in WE.
  unfold ck. rewrite S, T, WE. cbn [v2x v2y]. unfold endmean. rewrite Rabs_R0.
  replace (0 / 2 * leaning (a / 2) (h / w) * (0 / 2 * leaning (a / 2) (h / w))) with 0 by field. rewrite Rplus_0_l, sqrt_square; [field|].
  unfold weighty. left. apply Rmult_lt_0_compat; [apply Rdiv_lt_0_compat; lra|apply cosh_pos].
Qed.

Hypothesis Haw : a / 2 * w = 2 / 10.
Definition taut : R := 2 / 10 * cosh 1 + 1 / 1000.

Lemma taut_found : forall s : CatenarySolver RNum, c3_current (cs_catenary s) -> cs_is_updated s = false ->
  (cs_position s : R) = 1 -> cs_type s = TgTension -> (cs_value s : R) = taut -> c3_spacing (cs_catenary s) = span a ->
  c3_weight (cs_catenary s) = hang w -> c3_direction (cs_catenary s) = ADPositive ->
  2 / 10 < fst (cs_TensionHorizontal s) < 21 / 100.
Proof.
  intros s I UPD EP ET EV ESP EWE ED.
  set (cat := fun h : R => c3_fresh ADPositive (span a) (h : RNum) (hang w)).
  assert (MAG := level_mags a w Ha Hw). destruct MAG as (MA & MW).
  set (f := fun h => quantity TgTension (cs_position s) (cat h)).
  assert (FQ : forall h, 0 < h -> f h = w * weighty (a / 2) (h / w)).
  { intros h Hh. rewrite <- level_end by exact Hh. unfold f, quantity. destruct (Req_EM_T (cs_position s) (-1)) as [N|_]; [lra|].
    rewrite EP. reflexivity. }
  assert (C1 : 1 <= cosh 1) by apply cosh_ge_1.
  assert (C2 : 1 / 3 <= cosh 1 - sinh 1).
  { replace (cosh 1 - sinh 1) with (/ exp 1) by (unfold cosh, sinh; rewrite exp_Ropp; field; apply Rgt_not_eq, exp_pos).
    assert (P := exp_le_3). assert (Q := exp_pos 1). unfold Rdiv. rewrite Rmult_1_l. apply Rinv_le_contravar; lra. }
  assert (S1 : 1 < sinh 1) by (apply sinh_gt; lra).
  assert (AW : a / 2 / (2 / 10 / w) = 1) by (rewrite <- Haw; field; lra).
  assert (F0 : f (2 / 10) = 2 / 10 * cosh 1). { rewrite FQ by lra. unfold weighty. rewrite AW. field. lra. }
  set (l := 2 / 10) in *. set (r := taut).
  assert (Hr : 1 / 20 < r - l) by (unfold r, taut, l; lra).
  assert (Pl : 0 < l / w) by (apply Rdiv_lt_0_compat; [unfold l; lra|exact Hw]).
  assert (TL : forall y, 0 < y -> y <> l -> f l + (cosh 1 - sinh 1) * (y - l) < f y).
  { intros y Hy N. rewrite !FQ by (unfold l in *; lra).
    assert (T := weighty_tangent_lt (a / 2) (y / w) (l / w) ltac:(lra) ltac:(apply Rdiv_lt_0_compat; lra) Pl).
    assert (N' : y / w <> l / w). { intros Q. apply N. replace y with (y / w * w) by (field; lra). rewrite Q. field. lra. }
    specialize (T N'). unfold weighty' in T. rewrite AW in T. apply Rmult_lt_compat_l with (r := w) in T; [|exact Hw].
    replace (w * (weighty (a / 2) (l / w) + (cosh 1 - 1 * sinh 1) * (y / w - l / w))) with
      (w * weighty (a / 2) (l / w) + (cosh 1 - sinh 1) * (y - l)) in T by (field; lra). exact T. }
  assert (TX : forall x y, 0 < x -> 0 < y -> x <> y -> exists d, f x + d * (y - x) < f y /\ forall z, 0 < z -> z <> x -> f x + d * (z - x) < f z).
  { intros x y Hx Hy N. exists (weighty' (a / 2) (x / w)).
    assert (G : forall z, 0 < z -> z <> x -> f x + weighty' (a / 2) (x / w) * (z - x) < f z).
    { intros z Hz N2. rewrite !FQ by assumption.
      assert (T := weighty_tangent_lt (a / 2) (z / w) (x / w) ltac:(lra) ltac:(apply Rdiv_lt_0_compat; lra) ltac:(apply Rdiv_lt_0_compat; lra)).
      assert (N' : z / w <> x / w). { intros Q. apply N2. replace z with (z / w * w) by (field; lra). rewrite Q. field. lra. }
      specialize (T N'). apply Rmult_lt_compat_l with (r := w) in T; [|exact Hw].
      replace (w * (weighty (a / 2) (x / w) + weighty' (a / 2) (x / w) * (z / w - x / w))) with
        (w * weighty (a / 2) (x / w) + weighty' (a / 2) (x / w) * (z - x)) in T by (field; lra). exact T. }
    split; [apply G; auto|exact G]. }
  set (x := next_x f r (mkPoint2d (N := RNum) l (f l)) (mkPoint2d (N := RNum) r (f r))).
  assert (PL : 0 < l) by (unfold l; lra). assert (PR : 0 < r) by lra.
  assert (RL := TL r PR ltac:(lra)). set (k := (f r - f l) / (r - l)).
  assert (K : 1 / 3 < k).
  { unfold k. apply Rmult_lt_reg_r with (r - l); [lra|]. unfold Rdiv at 2. rewrite Rmult_assoc, Rinv_l by lra. nra. }
  assert (KE : f r = f l + k * (r - l)) by (unfold k; field; lra).
  assert (X : x = l + 1 / 1000 / k).
  { unfold x, next_x. cbn [p2x p2y]. fold k.
    replace (r - f l) with (1 / 1000); [reflexivity|]. rewrite F0. unfold r, taut. fold l. ring. }
  assert (XK : k * (x - l) = 1 / 1000) by (rewrite X; field; lra).
  assert (X1 : l < x < l + 1 / 200) by nra.
  assert (FX : f x < r).
  { destruct (TX x l ltac:(lra) PL ltac:(lra)) as (d & D1 & D2). assert (D3 := D2 r PR ltac:(lra)).
    assert (ER : r = f l + k * (x - l)) by (rewrite XK, F0; unfold r, taut; fold l; ring).
    assert (A1 := Rmult_lt_compat_l (r - x) _ _ ltac:(lra) D1). assert (A2 := Rmult_lt_compat_l (x - l) _ _ ltac:(lra) D3).
    rewrite KE in A2. assert (Q : (r - l) * f x < (r - l) * (f l + k * (x - l))) by lra. rewrite <- ER in Q. apply Rmult_lt_reg_l in Q; lra. }
  assert (TW : twin (cs_catenary s) (cat 0)).
  { refine (conj I (conj _ (conj ESP (conj EWE ED)))). intros U; discriminate U. }
  assert (FF : forall c, twin c (cat 0) -> fits (UpdateCatenaryTension (N := RNum) (cs_position s)) c f).
  { intros c T. eapply fits_ext; [apply update_tension|]. apply fits_fair; [apply fair_tension|exact T]. }
  assert (R0 : exists c, SolveFromTension (N := RNum) (cs_position s) (cs_value s) (cs_catenary s) = (true, c) /\ (c3_tension_horizontal c : R) = x).
  { unfold SolveFromTension.
    assert (M : tension_minimum (cs_catenary s) = l).
    { unfold tension_minimum, c2_ConstantMinimum. rewrite ESP, EWE, MA, MW. rn. exact Haw. }
    rewrite M. destruct (FF _ TW (cs_catenary s) l (twin_refl _ I)) as (E1 & T1).
    destruct (UpdateCatenaryTension (N := RNum) (cs_position s) (cs_catenary s) l) as [y1 c1]. cbn [fst snd] in E1, T1. subst y1.
    rewrite EV. fold r.
    rn. rewrite (proj2 (Rltb_false _ _)) by (rewrite F0; unfold r, taut; fold l; lra).
    assert (T1' := twin_trans _ _ _ T1 TW).
    destruct (FF _ T1' c1 r (twin_refl _ (proj1 T1))) as (E2 & T2).
    destruct (UpdateCatenaryTension (N := RNum) (cs_position s) c1 r) as [y2 c2]. cbn [fst snd] in E2, T2. subst y2.
    destruct (one_pass_right (UpdateCatenaryTension (N := RNum) (cs_position s)) c2 f r l r
      (FF c2 (twin_trans _ _ _ T2 T1')) (proj1 T2) ltac:(lra)) as (A & B); try (fold x; lra).
    destruct (solve_between _ _ _ _ _) as [b c]. cbn [fst snd] in A, B. subst b.
    exists c. split; [reflexivity|exact B]. }
  destruct R0 as (c & EC & HC).
  assert (C := tension_current (N := RNum) (cs_position s) (cs_value s) (cs_catenary s) I). rewrite EC in C. cbn [snd] in C.
  assert (TH : twin_h c (level a w x)).
  { split; [|exact HC]. eapply twin_trans; [exact C|]. eapply twin_trans; [exact TW|]. apply cat_twin. }
  assert (V : c3_Validate c = true).
  { assert (Q := twin_answer _ _ Q3Validate TH). cbn [c3_answer] in Q. injection Q as Q. rewrite Q.
    apply level_valid; [exact Ha|exact Hw|]. rewrite Haw. fold l. lra. }
  assert (UP : cs_Update s = (true, cs_with s (c3_after_Validate c) true)).
  { unfold cs_Update. rewrite ET, EC, V. reflexivity. }
  unfold cs_TensionHorizontal, cs_ensure. rewrite UPD, UP. cbn [fst cs_with cs_catenary].
  rewrite (proj2 (after_Validate_twin c (proj1 C))), HC. unfold l in *. lra.
Qed.
End Taut.

(** ** The statements of the properties *)
Lemma sag_target_case : let ks := [
    ScSetType TgSag; ScSetSpacing (span 700); ScTensionHorizontal; ScSetSpacing (span 100); ScSetWeight (hang (4 / 1000));
    ScSetValue (N := RNum) (middle_sag 100 (4 / 1000))] in
  let s := cs_run (@CatenarySolver_default RNum) ks in
  (fst (cs_TensionHorizontal s) : R) = 21 / 100 /\ (fst (cs_TensionHorizontal (cs_renew s)) : R) = 21 / 100 /\
  Rabs (c3_Sag (level 100 (4 / 1000) (21 / 100)) - middle_sag 100 (4 / 1000)) <= 4 / 3 / (4 / 1000) / 100.
Proof.
  intros ks s. destruct (inputsS ks (@CatenarySolver_default RNum) default3_current) as (E1 & E2 & E3 & E4 & E5).
  fold s in E1, E2, E3, E4, E5.
  cbn [ks last_of pickS_position pickS_spacing pickS_type pickS_value pickS_weight CatenarySolver_default cs_position] in E1, E2, E3, E4, E5.
  assert (P1 : (cs_position s : R) = -1) by (rewrite E1; rn; reflexivity).
  assert (A : (fst (cs_TensionHorizontal (cs_renew s)) : R) = 21 / 100).
  { apply (middle_found 100 (4 / 1000)); try lra; try reflexivity; try assumption. intros U; discriminate U. }
  assert (B : (fst (cs_TensionHorizontal s) : R) = 21 / 100).
  { destruct (history_answers ks) as [(H & _)|(H & _)]; fold s in H.
    - rewrite H. exact A.
    - exfalso. rewrite A in H. unfold ferr in H. rn. lra. }
  split; [exact B|]. split; [exact A|].
  assert (N1 : (fst (cs_TensionHorizontal s) : R) <> -999999) by (rewrite B; lra).
  assert (N2 : (fst (cs_TensionHorizontal (cs_renew s)) : R) <> -999999) by (rewrite A; lra).
  destruct (run_answer ks N1 N2) as (_ & _ & M). fold s in M. rewrite B in M. unfold hung in M. rewrite E2, E3, E4, E5 in M.
  destruct M as (_ & M). specialize (M P1). rewrite (proj2 (level_mags 100 (4 / 1000) ltac:(lra) ltac:(lra))) in M. exact M.
Qed.

Lemma tension_target_case : let ks := [
    ScSetType TgTension; ScSetPosition (1 : RNum); ScSetSpacing (span 100); ScSetWeight (hang (4 / 1000)); ScSetValue (N := RNum) taut] in
  let s := cs_run (@CatenarySolver_default RNum) ks in
  2 / 10 < fst (cs_TensionHorizontal s) < 21 / 100 /\ 2 / 10 < fst (cs_TensionHorizontal (cs_renew s)) < 21 / 100.
Proof.
  intros ks s.
  assert (A : 2 / 10 < fst (cs_TensionHorizontal (cs_renew s)) < 21 / 100).
  { apply (taut_found 100 (4 / 1000)); try lra; try reflexivity. intros U; discriminate U. }
  split; [|exact A]. destruct (history_answers ks) as [(H & _)|(H & _)]; fold s in H.
  - rewrite H. exact A.
  - exfalso. rewrite H in A. unfold ferr in A. rn. lra.
Qed.
