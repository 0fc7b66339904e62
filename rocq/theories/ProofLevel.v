(** Level spans: length, sag, highest tension and the time of waves. *)
From Coq Require Import ZArith Bool List Reals Lra Lia Psatz.
From Verif Require Import Num NumFacts ModelBase ModelCatenary SpecCatenary SpecCatenary3 ModelSagging SpecSagging
  ProofReal ProofVector HypFacts ProofCatenary ProofCatenary3 ProofSaggers.
Import ListNotations.
Open Scope R_scope.

Section Level2.
Variable c : Catenary2d RNum.
Hypothesis cur : c2_current c.
Hypothesis Hh : 0 < c2_tension c.
Hypothesis Hw : 0 < c2_weight c.
Hypothesis Ha : 0 < v2x (c2_spacing c).
Hypothesis Hb : (v2y (c2_spacing c) : R) = 0.

Lemma level_cu : cu c = 0.
Proof using Hb. unfold cu. rewrite Hb. unfold Rdiv. rewrite !Rmult_0_l. apply sinh_inj. rewrite sinh_arcsinh, sinh_0. reflexivity. Qed.

Lemma level_sag : (c2_Sag c : R) = ck c * (cosh (cz c) - 1).
Proof using cur Hh Hw Ha Hb.
  rewrite (sag_R c cur), (sagat_R c cur Hh Hw).
  assert (S := sagpoint_sinh c cur Hh Hw Ha). rewrite Hb in S. unfold Rdiv in S. rewrite Rmult_0_l in S.
  assert (T : ct c (c2_PositionFractionSagPoint c) = 0) by (apply sinh_inj; rewrite S, sinh_0; reflexivity).
  rewrite T. unfold sag_t. rewrite level_cu, Hb, cosh_0. replace (0 - cz c) with (- cz c) by ring. rewrite cosh_neg. unfold Rdiv. ring.
Qed.

Lemma level_facts : let k := c2_tension c / c2_weight c in let s : R := c2_Sag c in
  c2_Length c * c2_Length c = 4 * (s * s) + 8 * (k * s) /\ c2_TensionMax c = c2_tension c + c2_weight c * s :> R /\
  v2x (c2_spacing c) * v2x (c2_spacing c) < 8 * (k * s) /\ 0 < s.
Proof using cur Hh Hw Ha Hb.
  intros k s. assert (Pk := ck_pos c Hh Hw). assert (Pz := cz_pos c Hh Hw Ha). change k with (ck c).
  assert (ES : s = ck c * (cosh (cz c) - 1)) by exact level_sag. clearbody s.
  assert (Q := cosh_sinh_sq (cz c)). assert (Z : v2x (c2_spacing c) = 2 * ck c * cz c :> R) by exact (a_kz c Hh Hw).
  assert (Hz : cosh (cz c) = 1 + 2 * (sinh (cz c / 2) * sinh (cz c / 2))).
  { replace (cz c) with (cz c / 2 + cz c / 2) at 1 by field. rewrite cosh_plus. assert (X := cosh_sinh_sq (cz c / 2)). nra. }
  assert (G := sinh_gt (cz c / 2) ltac:(lra)).
  split; [|split; [|split]].
  - unfold c2_Length. rewrite (ens c cur), (E_length_2 c Hh Hw), level_cu, cosh_0, ES. change (F RNum) with R in *. nra.
  - rewrite (tensionmax_R c cur). destruct Rle_dec as [L|L]; [|exfalso; apply L; rewrite Hb; lra].
    rewrite (tension_R c cur Hh Hw), ct_0, level_cu, ES. replace (0 - cz c) with (- cz c) by ring. rewrite cosh_neg. unfold ck. rfield. lra.
  - rewrite Z, ES, Hz. assert (0 < ck c * ck c) by nra. assert (cz c / 2 * (cz c / 2) < sinh (cz c / 2) * sinh (cz c / 2)) by (apply Rmult_le_0_lt_compat; lra).
    assert (M : ck c * ck c * (cz c / 2 * (cz c / 2)) < ck c * ck c * (sinh (cz c / 2) * sinh (cz c / 2))) by (apply Rmult_lt_compat_l; assumption). change (F RNum) with R in *. lra.
  - rewrite ES, Hz. apply Rmult_lt_0_compat; [exact Pk|]. nra.
Qed.
End Level2.

Section Level3.
Variable c : Catenary3d RNum.
Hypothesis cur : c3_current c.
Hypothesis use : usable3 c.
Hypothesis lev : (v3z (c3_spacing c) : R) = 0.

Lemma level3_facts : let s : R := c3_Sag c in let k : R := c3_Constant c in
  let w := length3 (v3x (c3_weight c)) (v3y (c3_weight c)) (v3z (c3_weight c)) in
  k * w = c3_tension_horizontal c /\ 0 < k /\ 0 < s /\
  c3_Length c * c3_Length c = 4 * (s * s) + 8 * (k * s) /\ c3_TensionMax c = c3_tension_horizontal c + w * s :> R /\
  v3x (c3_spacing c) * v3x (c3_spacing c) < 8 * (k * s).
Proof using cur use lev.
  intros s k w. assert (B : b3 c = 0) by (unfold b3; rewrite lev; ring).
  assert (A : a3 c * a3 c = v3x (c3_spacing c) * v3x (c3_spacing c)).
  { rewrite (a3_sq c use), B, (S3_sq c), lev. ring. }
  set (d := c3_catenary_2d (c3_ensure c)).
  assert (DS : c2_spacing d = mkVector2d (N := RNum) (a3 c) (b3 c)) by exact (d_spacing c cur use).
  destruct (level_facts d (d_current c cur) (d_h_pos c cur use) (d_w_pos c cur use) (d_a_pos c cur use) ltac:(rewrite DS; exact B)) as (L1 & L2 & L3 & L4).
  rewrite DS in L3. cbn [v2x] in L3. rewrite A in L3.
  assert (DW : c2_weight d = W3 c :> R) by exact (d_weight c cur use). assert (DT : c2_tension d = c3_tension_horizontal c) by exact (d_tension c cur).
  assert (W : w = W3 c) by (unfold w; rewrite <- mag3_R; exact (magw c use)). assert (WP := W3_pos c use).
  assert (K : k = c2_tension d / c2_weight d) by (unfold k; rewrite (const_R c cur use), DT, DW; reflexivity).
  rewrite <- K in L1, L3. change (c2_Sag d) with (c3_Sag c) in *. fold s in L1, L2, L3, L4. rewrite W, <- DT, <- DW.
  split; [rewrite K; rfield; rewrite DW; lra|]. split; [rewrite K; apply Rdiv_lt_0_compat; [exact (d_h_pos c cur use)|exact (d_w_pos c cur use)]|].
  split; [exact L4|]. split; [exact L1|]. split; [exact L2|exact L3].
Qed.
End Level3.

Lemma level_law : forall cks, let c := c3_run (@Catenary3d_default RNum) cks in
  usable3 c -> (v3z (c3_spacing c) : R) = 0 -> let s : R := c3_Sag c in let k : R := c3_Constant c in
  let w := length3 (v3x (c3_weight c)) (v3y (c3_weight c)) (v3z (c3_weight c)) in
  k * w = c3_tension_horizontal c /\ 0 < k /\ 0 < s /\
  c3_Length c * c3_Length c = 4 * (s * s) + 8 * (k * s) /\ c3_TensionMax c = c3_tension_horizontal c + w * s :> R /\
  v3x (c3_spacing c) * v3x (c3_spacing c) < 8 * (k * s).
Proof. intros cks c U Z. exact (level3_facts c (run3_usable cks) U Z). Qed.

Lemma stopwatch_sag_law : forall cks ks s wave, let c := c3_run (@Catenary3d_default RNum) cks in
  sw_run (@Stopwatch_new RNum) ks = Ok s -> sw_catenary s = c -> usable3 c -> (v3z (c3_spacing c) : R) = 0 -> sw_units s <> USNull ->
  (0 < wave < 2 ^ 30)%Z ->
  exists time g : R, omap fst (TimeReturn s wave) = Ok time /\
  g * (time / (2 * IZR wave) * (time / (2 * IZR wave))) = 8 * c3_Sag c * (1 + c3_Sag c / (2 * c3_Constant c)) /\
  (sw_units s = Imperial -> Rabs (g - 32174 / 1000) <= 1 / 1000) /\
  (sw_units s = Metric -> Rabs (g - 980665 / 100000) <= 1 / 10000).
Proof.
  intros cks ks s wave c RUN EC U Z UN W.
  destruct (stopwatch_law cks ks s wave RUN EC U UN ltac:(lia)) as (time & v & g & T1 & _ & V & T2 & T3 & G). fold c in T2, T3.
  destruct (level_law cks U Z) as (K1 & K2 & _ & L & _). fold c in K1, K2, L.
  exists time, g. split; [exact T1|]. split; [|exact G].
  set (q := length3 _ _ _) in *. assert (WP : 0 < IZR wave) by (apply IZR_lt; lia).
  assert (Q : 0 < q). { assert (X := W3_pos c U). rewrite <- (magw c U), mag3_R in X. exact X. }
  assert (GV : v * v = g * c3_Constant c). { apply Rmult_eq_reg_r with q; [|lra]. rewrite T3, Rmult_assoc. change (F RNum) with R in *. rewrite K1. reflexivity. }
  assert (T : time = 2 * IZR wave * c3_Length c / v) by (apply Rmult_eq_reg_r with v; [rewrite T2; field; lra|lra]).
  set (D := c3_Sag c) in *. set (k := c3_Constant c) in *. set (l := c3_Length c) in *. change (F RNum) with R in (type of D), (type of k), (type of l). clearbody D k l.
  assert (GG : g = v * v / k) by (rewrite GV; field; lra). rewrite GG, T.
  replace (2 * IZR wave * l / v / (2 * IZR wave)) with (l / v) by (field; lra).
  replace (v * v / k * (l / v * (l / v))) with (l * l / k) by (field; lra). rewrite L. field. lra.
Qed.
