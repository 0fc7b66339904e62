(** Level spans of different width with the same load and horizontal tension. *)
From Coq Require Import ZArith Bool List Reals Lra Psatz.
From Verif Require Import Num NumFacts ModelBase ModelCatenary SpecCatenary SpecCatenary3
  ProofReal ProofVector HypFacts ProofCatenary ProofCatenary3 ProofSolverRate ProofLevel.
Import ListNotations.
Open Scope R_scope.

Lemma level_shape : forall ks, let c := c3_run (@Catenary3d_default RNum) ks in
  usable3 c -> (v3z (c3_spacing c) : R) = 0 ->
  let k := c3_tension_horizontal c / W3 c in exists z, 0 < z /\ 0 < k /\ v3x (c3_spacing c) = 2 * k * z :> R /\
    c3_Sag c = 2 * k * (sinh (z / 2) * sinh (z / 2)) :> R /\ c3_Length c = 2 * k * sinh z :> R /\
    c3_LengthSlack c = c3_Length c - v3x (c3_spacing c) :> R.
Proof.
  intros ks c use lev k. assert (cur := run3_usable ks). fold c in cur. assert (B : b3 c = 0) by (unfold b3; rewrite lev; ring).
  assert (X0 := use_sx c use). assert (AP := a3_pos c use).
  assert (A : a3 c = v3x (c3_spacing c)).
  { assert (Q : a3 c * a3 c = v3x (c3_spacing c) * v3x (c3_spacing c)) by (rewrite (a3_sq c use), B, (S3_sq c), lev; ring).
    change (F RNum) with R in *. nra. }
  set (d := c3_catenary_2d (c3_ensure c)).
  assert (DS : c2_spacing d = mkVector2d (N := RNum) (a3 c) (b3 c)) by exact (d_spacing c cur use).
  assert (DW : c2_weight d = W3 c :> R) by exact (d_weight c cur use). assert (DT : c2_tension d = c3_tension_horizontal c) by exact (d_tension c cur).
  assert (Hb : (v2y (c2_spacing d) : R) = 0) by (rewrite DS; exact B).
  assert (Hh : 0 < c2_tension d) by exact (d_h_pos c cur use). assert (Hw : 0 < c2_weight d) by exact (d_w_pos c cur use).
  assert (Ha : 0 < v2x (c2_spacing d)) by exact (d_a_pos c cur use).
  assert (K : ck d = k) by (unfold ck, k; rewrite DT, DW; reflexivity).
  exists (cz d). rewrite <- K. split; [exact (cz_pos d Hh Hw Ha)|]. split; [exact (ck_pos d Hh Hw)|]. split; [|split; [|split]].
  - rewrite <- A. assert (Z := a_kz d Hh Hw). rewrite DS in Z. exact Z.
  - change (c3_Sag c) with (c2_Sag d). rewrite (level_sag d (d_current c cur) Hh Hw Ha Hb).
    assert (Hz : cosh (cz d) = 1 + 2 * (sinh (cz d / 2) * sinh (cz d / 2))).
    { replace (cz d) with (cz d / 2 + cz d / 2) at 1 by field. rewrite cosh_plus. assert (Q := cosh_sinh_sq (cz d / 2)). nra. }
    rewrite Hz. ring.
  - change (c3_Length c) with (c2_Length d). unfold c2_Length. rewrite (ens d (d_current c cur)), (E_length_2 d Hh Hw), (level_cu d Hb), cosh_0. req. ring.
  - change (c3_LengthSlack c) with (c2_LengthSlack d). change (c3_Length c) with (c2_Length d). unfold c2_LengthSlack, c2_Length.
    rewrite (ens d (d_current c cur)), E_s, mag_R, DS. unfold mag. cbn [v2x v2y]. rewrite B, A.
    replace (v3x (c3_spacing c) * v3x (c3_spacing c) + 0 * 0) with (v3x (c3_spacing c) * v3x (c3_spacing c)) by rring.
    rewrite sqrt_square by (left; exact X0). reflexivity.
Qed.

Lemma wider : forall ks ks', let c := c3_run (@Catenary3d_default RNum) ks in let c' := c3_run (@Catenary3d_default RNum) ks' in
  usable3 c -> usable3 c' -> (v3z (c3_spacing c) : R) = 0 -> (v3z (c3_spacing c') : R) = 0 ->
  c3_weight c = c3_weight c' -> c3_tension_horizontal c = c3_tension_horizontal c' ->
  let x : R := v3x (c3_spacing c) in let x' : R := v3x (c3_spacing c') in x < x' ->
  c3_Sag c * (x' * x') <= c3_Sag c' * (x * x) /\ c3_Length c * x' <= c3_Length c' * x /\
  c3_Sag c < c3_Sag c' /\ c3_TensionMax c < c3_TensionMax c' /\ c3_LengthSlack c < c3_LengthSlack c'.
Proof.
  intros ks ks' c c' U U' L L' W H x x' X.
  destruct (level_law ks U L) as (KW & _ & _ & _ & TM & _). destruct (level_law ks' U' L') as (KW' & _ & _ & _ & TM' & _).
  fold c in KW, TM. fold c' in KW', TM'. cbv zeta in TM, TM'.
  destruct (level_shape ks U L) as (z & Z & K & E & S & N & SL0). destruct (level_shape ks' U' L') as (z' & Z' & K' & E' & S' & N' & SL0').
  fold c in E, S, N, K, SL0. fold c' in E', S', N', K', SL0'.
  assert (WW : W3 c' = W3 c) by (unfold W3; rewrite W; reflexivity).
  rewrite <- H, WW in E', S', N', K'. set (k := c3_tension_horizontal c / W3 c) in *. clearbody k.
  fold x in E, SL0. fold x' in E', SL0'. clearbody x x'.
  assert (ZZ : z < z') by nra.
  assert (Q := shc_up (z / 2) (z' / 2) ltac:(lra)). assert (Q2 := shc_up z z' ltac:(lra)).
  assert (P := sinh_pos (z / 2) ltac:(lra)). assert (LT : sinh (z / 2) < sinh (z' / 2)) by (apply sinh_lt; lra).
  assert (SL : c3_Sag c < c3_Sag c').
  { rewrite S, S'. apply Rmult_lt_compat_l; [lra|]. apply Rmult_le_0_lt_compat; lra. }
  split; [|split; [|split; [exact SL|split]]].
  - rewrite S, S', E, E'. set (u := sinh (z / 2)) in *. set (v := sinh (z' / 2)) in *. clearbody u v.
    assert (M : (z' * u) * (z' * u) <= (z * v) * (z * v)) by (apply Rmult_le_compat; nra).
    assert (0 <= 8 * (k * k * k)) by (assert (0 < k * k) by nra; nra).
    replace (2 * k * (u * u) * (2 * k * z' * (2 * k * z'))) with (8 * (k * k * k) * (z' * u * (z' * u))) by ring.
    replace (2 * k * (v * v) * (2 * k * z * (2 * k * z))) with (8 * (k * k * k) * (z * v * (z * v))) by ring.
    apply Rmult_le_compat_l; assumption.
  - rewrite N, N', E, E'.
    replace (2 * k * sinh z * (2 * k * z')) with (4 * (k * k) * (z' * sinh z)) by ring.
    replace (2 * k * sinh z' * (2 * k * z)) with (4 * (k * k) * (z * sinh z')) by ring.
    apply Rmult_le_compat_l; [nra|exact Q2].
  - rewrite TM, TM', <- H, <- W. apply Rplus_lt_compat_l. apply Rmult_lt_compat_l; [|exact SL].
    rewrite <- mag3_R. assert (MW := magw c U). change (F RNum) with R in *. rewrite MW. exact (W3_pos c U).
  - rewrite SL0, SL0', N, N', E, E'.
    destruct (MVT_cor2 sinh cosh z z' ZZ) as (e & EE & C); [intros; apply derivable_pt_lim_sinh|].
    assert (C1 : 1 < cosh e).
    { assert (C2 := cosh_sinh_sq e). assert (C3 := sinh_pos e ltac:(lra)). assert (C4 := cosh_ge_1 e). nra. }
    assert (0 < (z' - z) * (cosh e - 1)) by (apply Rmult_lt_0_compat; lra).
    assert (0 < k * ((z' - z) * (cosh e - 1))) by (apply Rmult_lt_0_compat; lra). nra.
Qed.
