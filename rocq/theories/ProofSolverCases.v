(** Concrete solvers. *)
From Coq Require Import ZArith Bool List Reals Lra Lia.
From Verif Require Import Num NumFacts ModelBase ModelCatenary SpecCatenary ProofReal ProofVector HypFacts ProofCatenary
  SpecCatenary3 ProofCatenary3 ModelSolver SpecSolver ProofSolver ProofSolverReal ProofSolverTarget.
Import ListNotations.
Open Scope R_scope.

(** The converse of [cat_Validate]. *)
Lemma cat_valid : forall (sp w : Vector3d RNum) (h : R), inputs_ok sp w -> Rabs (v3z sp) < 2000 -> 0 < h ->
  Vector3d_Magnitude sp / 2 * Vector3d_Magnitude w <= h -> c3_Validate (c3_fresh ADPositive sp h w) = true.
Proof.
  intros sp w h O Z Hh HM. set (c := c3_fresh ADPositive sp h w).
  assert (U : usable3 c) by (apply cat_usable; assumption). assert (I : c3_current c) by (intros V; discriminate V).
  unfold c3_Validate.
  assert (V : c3_inputs_valid c = true).
  { unfold c3_inputs_valid. change (c3_spacing c) with sp. change (c3_weight c) with w. destruct O as (A & B & C & D & E). rn.
    rewrite (proj2 (Rleb_false _ _)), (proj2 (Reqb_true _ _)), (proj2 (Rltb_false _ _)), (proj2 (Rleb_false _ _)), (proj2 (Reqb_true _ _)), (proj2 (Rltb_false _ _)), (proj2 (Rleb_false _ _));
      try reflexivity; rn; lra || assumption. }
  rewrite V. unfold c2_Validate, c2_ValidateCurveAndSpacing, c2_Constant, c2_ConstantMinimum.
  rewrite (d_spacing c I U), (d_weight c I U), (d_tension c I). change (c3_tension_horizontal c) with h. cbn [v2x v2y]. rn.
  assert (B : Rabs (b3 c) < 2000).
  { assert (Q := b3_sq c U). apply Rsqr_le_abs_0 in Q. change (v3z (c3_spacing c)) with (v3z sp) in Q. lra. }
  assert (WP := W3_pos c U). assert (AP := a3_pos c U). rewrite mag_R, (mag_ab c U).
  rewrite (proj2 (Rleb_false _ _)), (proj2 (Rleb_false _ _)), (proj2 (Rleb_false _ _)), (proj2 (Rltb_false _ _)), (proj2 (Rleb_false _ _)) by (rn; lra).
  cbn [orb]. apply negb_true_iff, Rltb_false.
  change (Vector3d_Magnitude sp) with (Vector3d_Magnitude (c3_spacing c)) in HM.
  change (Vector3d_Magnitude w) with (Vector3d_Magnitude (c3_weight c)) in HM.
  rewrite (mags c U), (magw c U) in HM. apply Rmult_le_reg_r with (W3 c); [exact WP|].
  unfold Rdiv at 2. rewrite Rmult_assoc, Rinv_l, Rmult_1_r by lra. exact HM.
Qed.

(** ** A constant below the minimum *)
Definition low_calls : list (SolverCall RNum) :=
  [ScSetSpacing (mkVector3d (N := RNum) (1000 : R) (0 : R) (0 : R)); ScSetWeight (mkVector3d (N := RNum) (0 : R) (0 : R) (1 : R));
   ScSetType TgConstant; ScSetValue (N := RNum) (1 : R)].
Definition low : CatenarySolver RNum := cs_run CatenarySolver_default low_calls.
Definition low_catenary (h : R) : Catenary3d RNum :=
  c3_fresh ADPositive (mkVector3d (N := RNum) (1000 : R) (0 : R) (0 : R)) h (mkVector3d (N := RNum) (0 : R) (0 : R) (1 : R)).

Lemma mag_001 : (Vector3d_Magnitude (mkVector3d (N := RNum) (0 : R) (0 : R) (1 : R)) : R) = 1.
Proof. rewrite mag3_R. unfold length3. cbn [v3x v3y v3z]. replace (0 * 0 + 0 * 0 + 1 * 1) with (1 * 1) by ring. apply sqrt_square. lra. Qed.
Lemma mag_axis : forall x : R, 0 <= x -> (Vector3d_Magnitude (mkVector3d (N := RNum) x (0 : R) (0 : R)) : R) = x.
Proof. intros x H. rewrite mag3_R. unfold length3. cbn [v3x v3y v3z]. replace (x * x + 0 * 0 + 0 * 0) with (x * x) by ring. apply sqrt_square, H. Qed.
Lemma mag_axis_z : forall x : R, 0 <= x -> (Vector3d_Magnitude (mkVector3d (N := RNum) (0 : R) (0 : R) x) : R) = x.
Proof. intros x H. rewrite mag3_R. unfold length3. cbn [v3x v3y v3z]. replace (0 * 0 + 0 * 0 + x * x) with (x * x) by ring. apply sqrt_square, H. Qed.

Lemma low_invalid : c3_Validate (low_catenary 1) = false.
Proof.
  destruct (c3_Validate (low_catenary 1)) eqn:V; [|reflexivity]. exfalso.
  destruct (cat_Validate _ _ _ V) as (_ & _ & H). rewrite mag_001, mag_axis in H; lra.
Qed.

Lemma low_update : exists s' : CatenarySolver RNum, cs_Update low = (false, s') /\ cs_is_updated s' = true /\
  (c3_tension_horizontal (cs_catenary s') : R) = 1 /\
  (forall q, c3_answer (cs_catenary s') q = c3_answer (low_catenary 1) q).
Proof.
  unfold low, low_calls. cbn [cs_run fold_left cs_call]. unfold cs_Update. cbn [cs_set_value cs_type SolveFromConstant].
  set (c := c3_set_tension _ _). cbn [cs_value].
  assert (I : c3_current c) by (intros U; discriminate U).
  assert (T : (c3_tension_horizontal c : R) = 1).
  { unfold c. change (c3_tension_horizontal (c3_set_tension ?c ?h)) with h.
    transitivity (1 * Vector3d_Magnitude (mkVector3d (N := RNum) (0 : R) (0 : R) (1 : R))); [reflexivity|]. rewrite mag_001. ring. }
  assert (TW : twin_h c (low_catenary 1)).
  { split; [|exact T]. refine (conj I (conj _ (conj eq_refl (conj eq_refl eq_refl)))). intros U; discriminate U. }
  assert (V : c3_Validate c = false).
  { assert (Q := twin_answer _ _ Q3Validate TW). cbn [c3_answer] in Q. injection Q as Q. rewrite Q. apply low_invalid. }
  rewrite V. eexists. split; [reflexivity|]. split; [reflexivity|]. cbn [cs_with cs_catenary].
  assert (A := after_Validate_twin c I). split; [rewrite (proj2 A); exact T|].
  intros q. apply twin_answer. eapply twin_h_trans; eassumption.
Qed.

Lemma low_answers :
  (fst (cs_TensionHorizontal low) : R) = -999999 /\
  (fst (cs_TensionHorizontal (snd (cs_TensionHorizontal low))) : R) = 1 /\
  (forall q, c3_answer (fst (cs_Catenary (snd (cs_TensionHorizontal low)))) q = c3_answer (low_catenary 1) q) /\
  c3_Validate (low_catenary 1) = false.
Proof.
  destruct low_update as (s' & E & U & T & Q).
  assert (N0 : cs_ensure low = (false, s')) by (unfold cs_ensure; change (cs_is_updated low) with false; exact E).
  unfold cs_TensionHorizontal at 1. rewrite N0. cbn [fst].
  assert (S : snd (cs_TensionHorizontal low) = s') by (unfold cs_TensionHorizontal; rewrite N0; reflexivity).
  rewrite S. unfold cs_TensionHorizontal, cs_Catenary, cs_ensure. rewrite U. cbn [fst].
  split; [unfold ferr; rn; reflexivity|]. split; [exact T|]. split; [exact Q|exact low_invalid].
Qed.

(** ** A length found in one pass *)
Lemma glen_convex : forall a k1 k2, 0 < a -> 0 < k1 -> k1 < k2 ->
  2 * glen a ((k1 + k2) / 2) < glen a k1 + glen a k2.
Proof.
  intros a k1 k2 Ha H1 H2. set (m := (k1 + k2) / 2). assert (M : k1 < m < k2) by (unfold m; lra).
  set (g' := fun k => 2 * (sinh (a / (2 * k)) - a / (2 * k) * cosh (a / (2 * k)))).
  destruct (MVT_cor2 (glen a) g' k1 m (proj1 M)) as (c & E & C); [intros; apply glen_deriv; lra|].
  destruct (MVT_cor2 (glen a) g' m k2 (proj2 M)) as (d & E' & D); [intros; apply glen_deriv; lra|].
  assert (G : g' c < g' d).
  { unfold g'. assert (Z : 0 < a / (2 * d) < a / (2 * c)).
    { split; [apply Rdiv_lt_0_compat; lra|]. apply Rmult_lt_compat_l; [exact Ha|]. apply Rinv_lt_contravar; [nra|lra]. }
    set (y := a / (2 * d)) in *. set (z := a / (2 * c)) in *.
    assert (DD : forall x, derivable_pt_lim (fun z => z * cosh z - sinh z) x (x * sinh x)).
    { intros x. replace (x * sinh x) with ((1 * cosh x + x * sinh x) - cosh x) by ring.
      apply derivable_pt_lim_minus; [|apply derivable_pt_lim_sinh].
      apply (derivable_pt_lim_mult id cosh x); [apply derivable_pt_lim_id|apply derivable_pt_lim_cosh]. }
    destruct (MVT_cor2 _ _ y z (proj2 Z) (fun c _ => DD c)) as (e & EE & EC). cbn beta in EE.
    assert (P := sinh_pos e ltac:(lra)). assert (0 < e * sinh e) by nra. nra. }
  assert (Q : m - k1 = k2 - m) by (unfold m; lra). nra.
Qed.

Lemma one_pass : forall u c0 (f : R -> R) (l r : R), fits u c0 f -> c3_current c0 -> r - l = 2 / 100 ->
  f r < f l -> f ((l + r) / 2) <> (f l + f r) / 2 ->
  let res := solve_between u ((f l + f r) / 2 : R) (mkPoint2d (N := RNum) l (f l)) (mkPoint2d (N := RNum) r (f r)) c0 in
  fst res = true /\ (c3_tension_horizontal (snd res) : R) = (l + r) / 2.
Proof.
  intros u c0 f l r FI I LR FLR NE res. unfold res, solve_between. clear res.
  set (t := (f l + f r) / 2) in *. set (s0 := mkLoopState _ _ _ _ _).
  assert (X : next_x f t (lo_left s0) (lo_right s0) = (l + r) / 2).
  { unfold next_x, s0. cbn [lo_left lo_right p2x p2y]. unfold t. field. lra. }
  destruct (pass_moved u c0 f t s0 FI (twin_refl c0 I)) as (M & E & IT & T).
  set (s1 := solve_pass u t s0) in *. rewrite X in E.
  assert (D : Rabs (p2x (lo_left s1) - p2x (lo_right s1)) = 1 / 100).
  { destruct M as [y H|y H H1|y H H1|y H H1|y H].
    - exfalso. subst y. rewrite X in H. cbn in H. lra.
    - subst y. rewrite X. cbn [lo_left lo_right p2x s0]. rewrite Rabs_minus_sym, Rabs_pos_eq; lra.
    - subst y. rewrite X. cbn [lo_left lo_right p2x s0]. rewrite Rabs_minus_sym, Rabs_pos_eq; lra.
    - exfalso. subst y. rewrite X in H1. cbn in H1. lra.
    - exfalso. subst y. rewrite X in H. cbn [lo_left lo_right p2x s0] in H. apply NE. apply H. lra. }
  assert (L : solve_loop u t (Z.to_nat 102) s0 = s1).
  { change (Z.to_nat 102) with (S (S (Z.to_nat 100))). cbn [solve_loop]. fold s1.
    replace (_ && (lo_iter s0 <=? 100)%Z)%bool with true.
    2: { symmetry. apply andb_true_intro. split; [|reflexivity]. rn. rewrite flit_R, lit001. apply Rltb_true.
         cbn [lo_left lo_right p2x s0]. rewrite Rabs_minus_sym, Rabs_pos_eq; lra. }
    replace (_ && (lo_iter s1 <=? 100)%Z)%bool with false; [reflexivity|].
    symmetry. apply andb_false_iff. left. rn. rewrite flit_R, lit001, D. apply Rltb_false. lra. }
  rewrite L, IT. cbn [fst snd]. split; [reflexivity|]. rewrite E. reflexivity.
Qed.

(** A light span of 100 ft: the first bracket of the tension is [0.20, 0.22]. *)
Definition light_spacing : Vector3d RNum := mkVector3d (N := RNum) (100 : R) (0 : R) (0 : R).
Definition light_weight : Vector3d RNum := mkVector3d (N := RNum) (0 : R) (0 : R) (4 / 1000 : R).
Definition light_length : R := (flength light_spacing light_weight (2 / 10) + flength light_spacing light_weight (22 / 100)) / 2.
Definition light : CatenarySolver RNum :=
  cs_fresh (N := RNum) (-1 : R) light_spacing TgLength light_length light_weight.

Lemma light_ok : inputs_ok light_spacing light_weight.
Proof. unfold inputs_ok, light_spacing, light_weight. cbn [v3x v3y v3z]. repeat split; lra. Qed.
Lemma light_mags : (Vector3d_Magnitude light_spacing : R) = 100 /\ (Vector3d_Magnitude light_weight : R) = 4 / 1000.
Proof. split; [apply mag_axis|apply mag_axis_z]; lra. Qed.

Lemma light_flength : forall h, 0 < h -> flength light_spacing light_weight h = glen 100 (h / (4 / 1000)).
Proof.
  intros h Hh. rewrite (flength_R _ _ h light_ok Hh). set (c := c3_fresh _ _ _ _).
  assert (U : usable3 c) by (apply (cat_usable _ _ 1 light_ok); lra).
  assert (W : W3 c = 4 / 1000) by (rewrite <- (magw c U); apply light_mags).
  assert (B : b3 c = 0) by (unfold b3; change (v3z (c3_spacing c)) with 0; ring).
  assert (S : S3 c = 100) by (rewrite <- (mags c U); apply light_mags).
  assert (A : a3 c = 100). { unfold a3. rewrite S, B. replace (100 * 100 - 0 * 0) with (100 * 100) by ring. apply sqrt_square. lra. }
  rewrite W, B, A. rewrite Rmult_0_l, Rplus_0_l. apply sqrt_square. left. apply glen_pos; [lra|]. apply Rdiv_lt_0_compat; lra.
Qed.

Lemma light_answer : (fst (cs_TensionHorizontal light) : R) = 21 / 100.
Proof.
  assert (F1 : flength light_spacing light_weight (22 / 100) < flength light_spacing light_weight (2 / 10)).
  { destruct light_mags as (A & B).
    assert (Q := flength_falls _ _ light_ok (2 / 10) (22 / 100)). cbn zeta in Q. rewrite A, B in Q. specialize (Q ltac:(lra) ltac:(lra)). lra. }
  assert (F2 : flength light_spacing light_weight ((2 / 10 + 22 / 100) / 2) < light_length).
  { unfold light_length. rewrite !light_flength by lra.
    assert (G := glen_convex 100 (2 / 10 / (4 / 1000)) (22 / 100 / (4 / 1000)) ltac:(lra) ltac:(lra) ltac:(lra)).
    replace ((2 / 10 + 22 / 100) / 2 / (4 / 1000)) with ((2 / 10 / (4 / 1000) + 22 / 100 / (4 / 1000)) / 2) by field. lra. }
  assert (I : c3_current (cs_catenary light)) by (intros U; discriminate U).
  set (cat0 := c3_fresh ADPositive light_spacing (0 : R) light_weight).
  assert (TW : twin (cs_catenary light) cat0).
  { refine (conj I (conj _ (conj eq_refl (conj eq_refl eq_refl)))). intros U; discriminate U. }
  assert (FF : forall c, twin c cat0 -> fits UpdateCatenaryLength c (flength light_spacing light_weight)).
  { intros c T. eapply fits_ext; [apply update_length|]. apply fits_fair; [apply fair_length|exact T]. }
  assert (R0 : exists c, SolveFromLength (N := RNum) light_length (cs_catenary light) = (true, c) /\ (c3_tension_horizontal c : R) = 21 / 100).
  { unfold SolveFromLength.
    assert (M : tension_minimum (cs_catenary light) = 2 / 10).
    { unfold tension_minimum, c2_ConstantMinimum. change (c3_spacing (cs_catenary light)) with light_spacing.
      change (c3_weight (cs_catenary light)) with light_weight. destruct light_mags as (A & B). rewrite A, B. rn. lra. }
    rewrite M. destruct (FF _ TW (cs_catenary light) (2 / 10) (twin_refl _ I)) as (E1 & T1).
    destruct (UpdateCatenaryLength (cs_catenary light) (2 / 10)) as [y1 c1]. cbn [fst snd] in E1, T1. subst y1.
    assert (SP : c3_spacing c1 = light_spacing) by (destruct T1 as (_ & _ & -> & _); reflexivity). rewrite SP.
    assert (G1 : 100 < flength light_spacing light_weight (22 / 100)).
    { rewrite light_flength by lra. unfold glen. assert (Q := sinh_gt (100 / (2 * (22 / 100 / (4 / 1000)))) ltac:(lra)). lra. }
    rn. rewrite (proj2 (Rleb_false _ _)) by (destruct light_mags as (-> & _); unfold light_length; lra).
    rewrite (proj2 (Rltb_false _ _)) by (unfold light_length; lra).
    rewrite flit_R. replace (2 / 10 * (IZR 110 * powerRZ 10 (-2))) with (22 / 100) by (simpl; lra).
    assert (T1' := twin_trans _ _ _ T1 TW).
    destruct (FF _ T1' c1 (22 / 100) (twin_refl _ (proj1 T1))) as (E2 & T2).
    destruct (UpdateCatenaryLength c1 (22 / 100)) as [y2 c2]. cbn [fst snd] in E2, T2. subst y2.
    destruct (one_pass UpdateCatenaryLength c2 (flength light_spacing light_weight) (2 / 10) (22 / 100)
      (FF c2 (twin_trans _ _ _ T2 T1')) (proj1 T2) ltac:(lra) F1 ltac:(unfold light_length in F2; lra)) as (A & B).
    fold light_length in A, B. destruct (solve_between _ _ _ _ _) as [b c]. cbn [fst snd] in A, B. subst b.
    exists c. split; [reflexivity|]. rewrite B. lra. }
  destruct R0 as (c & EC & HC).
  assert (C := length_current (N := RNum) light_length (cs_catenary light) I). rewrite EC in C. cbn [snd] in C.
  assert (TH : twin_h c (c3_fresh ADPositive light_spacing (21 / 100 : R) light_weight)).
  { split; [|exact HC]. eapply twin_trans; [exact C|]. eapply twin_trans; [exact TW|]. apply cat_twin. }
  assert (V : c3_Validate c = true).
  { assert (Q := twin_answer _ _ Q3Validate TH). cbn [c3_answer] in Q. injection Q as Q. rewrite Q.
    apply cat_valid; [apply light_ok|cbn; rewrite Rabs_R0; lra|lra|]. destruct light_mags as (-> & ->). lra. }
  assert (UP : cs_Update light = (true, cs_with light (c3_after_Validate c) true)).
  { unfold cs_Update. change (cs_type light) with TgLength. cbn iota. change (cs_value light) with light_length. rewrite EC, V. reflexivity. }
  unfold cs_TensionHorizontal. change (cs_ensure light) with (cs_Update light). rewrite UP. cbn [fst cs_with cs_catenary].
  rewrite (proj2 (after_Validate_twin c (proj1 C))). exact HC.
Qed.

(** ** The statements of the properties *)
Lemma run_answer : forall ks, let s := cs_run (@CatenarySolver_default RNum) ks in
  let h : R := fst (cs_TensionHorizontal s) in
  h <> -999999 -> (fst (cs_TensionHorizontal (cs_renew s)) : R) <> -999999 ->
  c3_Validate (hung s h) = true /\
  (forall q, c3_answer (fst (cs_Catenary s)) q = c3_answer (hung s h) q) /\
  match cs_type s with
  | TgConstant => c3_Constant (hung s h) = cs_value s
  | TgLength => Rabs (c3_Length (hung s h) - cs_value s) <= / Vector3d_Magnitude (c3_weight (cs_catenary s)) / 100
  | TgSag => secant_close (fun h => quantity TgSag (cs_position s) (hung s h)) (cs_value s) (1 / 100) h /\
      (cs_position s = -1 ->
       Rabs (c3_Sag (hung s h) - cs_value s) <= 4 / 3 / Vector3d_Magnitude (c3_weight (cs_catenary s)) / 100)
  | TgTension => secant_close (fun h => quantity TgTension (cs_position s) (hung s h)) (cs_value s) (1 / 100) h /\
      (at_end (cs_position s) ->
       Rabs (quantity TgTension (cs_position s) (hung s h) - cs_value s) <=
       Vector3d_Magnitude (c3_spacing (cs_catenary s)) / v3x (c3_spacing (cs_catenary s)) / 100)
  | TgNull => False
  end.
Proof.
  intros ks s h Hh Hf. destruct (history_answers ks) as [(A & B)|(A & _)].
  - fold s in A, B. unfold h in *. rewrite A.
    destruct (first_answer _ _ _ _ _ Hf) as (V & Q & M). split; [exact V|]. split; [|exact M].
    intros q. rewrite B. apply Q.
  - exfalso. apply Hf. fold s in A. rewrite A. unfold ferr. rn. reflexivity.
Qed.

Lemma history_all : forall (N : Num) ks, let s := cs_run (@CatenarySolver_default N) ks in
  let f := cs_renew s in
  (same_answers s f \/ (fst (cs_TensionHorizontal f) = ferr /\ same_answers s (snd (cs_TensionHorizontal f)))) /\
  (fst (cs_Validate f) = true \/ cs_is_updated (snd (cs_TensionHorizontal f)) = false -> same_answers s f) /\
  cs_position s = last_of pickS_position ks #(-1)%num /\
  c3_spacing (cs_catenary s) = last_of pickS_spacing ks Vector3d_default /\
  cs_type s = last_of pickS_type ks TgNull /\
  cs_value s = last_of pickS_value ks ferr /\
  c3_weight (cs_catenary s) = last_of pickS_weight ks Vector3d_default.
Proof.
  intros N ks s f. split; [apply history_answers|]. split; [apply history_repeatable|].
  exact (inputsS ks CatenarySolver_default default3_current).
Qed.

Lemma low_refuted : exists ks, let s := cs_run (@CatenarySolver_default RNum) ks in
  let h : R := fst (cs_TensionHorizontal s) in
  h <> -999999 /\ c3_Validate (hung s h) = false.
Proof.
  exists (low_calls ++ [ScTensionHorizontal]).
  replace (cs_run CatenarySolver_default (low_calls ++ [ScTensionHorizontal])) with (snd (cs_TensionHorizontal low))
    by (unfold cs_run; rewrite fold_left_app; reflexivity).
  destruct low_answers as (_ & B & _ & D). cbn zeta. rewrite B. split; [lra|].
  unfold hung. destruct (inputsS [ScTensionHorizontal] low) as (_ & E1 & _ & _ & E2); [intros U; discriminate U|].
  cbn [cs_run fold_left cs_call last_of pickS_spacing pickS_weight] in E1, E2. rewrite E1, E2. exact D.
Qed.

Lemma low_differs : exists ks, let s := cs_run (@CatenarySolver_default RNum) ks in
  fst (cs_TensionHorizontal (snd (cs_TensionHorizontal s))) <> fst (cs_TensionHorizontal s).
Proof.
  exists low_calls. cbn zeta. fold low. destruct low_answers as (A & B & _). rewrite A, B. lra.
Qed.

Lemma light_case : let ks := [
    ScSetType TgLength; ScSetSpacing (mkVector3d (N := RNum) (700 : R) (0 : R) (0 : R)); ScTensionHorizontal;
    ScSetSpacing light_spacing; ScSetWeight light_weight; ScValidate; ScSetValue (N := RNum) light_length; ScCatenary] in
  let s := cs_run (@CatenarySolver_default RNum) ks in
  (fst (cs_TensionHorizontal s) : R) = 21 / 100 /\
  Rabs (c3_Length (c3_fresh ADPositive light_spacing (21 / 100 : R) light_weight) - light_length) <= / (4 / 1000) / 100.
Proof.
  intros ks s. assert (E : cs_renew s = light).
  { unfold cs_renew. destruct (inputsS ks (@CatenarySolver_default RNum) default3_current) as (E1 & E2 & E3 & E4 & E5).
    fold s in E1, E2, E3, E4, E5. rewrite E1, E2, E3, E4, E5. unfold light.
    cbn [ks last_of pickS_position pickS_spacing pickS_type pickS_value pickS_weight CatenarySolver_default cs_position]. rn. reflexivity. }
  assert (LA := light_answer).
  assert (A : (fst (cs_TensionHorizontal s) : R) = 21 / 100).
  { destruct (history_answers ks) as [(H & _)|(H & _)]; fold s in H; rewrite E in H.
    - rewrite H. exact LA.
    - exfalso. rewrite LA in H. unfold ferr in H. rn. lra. }
  split; [exact A|].
  assert (N1 : (fst (cs_TensionHorizontal s) : R) <> -999999) by (rewrite A; lra).
  assert (N2 : (fst (cs_TensionHorizontal (cs_renew s)) : R) <> -999999) by (rewrite E, LA; lra).
  destruct (run_answer ks N1 N2) as (_ & _ & M). fold s in M. rewrite A in M.
  destruct (inputsS ks (@CatenarySolver_default RNum) default3_current) as (E1 & E2 & E3 & E4 & E5). fold s in E1, E2, E3, E4, E5.
  unfold hung in M. rewrite E2, E3, E4, E5 in M.
  cbn [ks last_of pickS_position pickS_spacing pickS_type pickS_value pickS_weight] in M.
  replace (Vector3d_Magnitude light_weight : R) with (4 / 1000) in M by (symmetry; apply light_mags). exact M.
Qed.

Lemma light_twice : fst (cs_Validate light) = true /\
  same_answers (snd (cs_Catenary (snd (cs_TensionHorizontal light)))) light.
Proof.
  assert (LA := light_answer).
  assert (UP : fst (cs_Update light) = true).
  { unfold cs_TensionHorizontal in LA. change (cs_ensure light) with (cs_Update light) in LA. destruct (cs_Update light) as [[] s']; [reflexivity|].
    exfalso. cbn [fst] in LA. unfold ferr in LA. rn. lra. }
  assert (V : fst (cs_Validate light) = true).
  { unfold cs_Validate. replace (cs_inputs_valid light) with true; [exact UP|]. symmetry.
    unfold cs_inputs_valid. change (cs_type light) with TgLength. change (cs_value light) with light_length.
    change (cs_position light) with (-1). change (c3_spacing (cs_catenary light)) with light_spacing.
    change (c3_weight (cs_catenary light)) with light_weight. cbn [light_spacing light_weight v3x v3y v3z]. rn.
    assert (LL : 0 < light_length).
    { unfold light_length. rewrite !light_flength by lra.
      assert (P := glen_pos 100 (2 / 10 / (4 / 1000)) ltac:(lra) ltac:(lra)). assert (Q := glen_pos 100 (22 / 100 / (4 / 1000)) ltac:(lra) ltac:(lra)). lra. }
    rewrite Rabs_R0.
    repeat rewrite (proj2 (Reqb_true _ _)) by reflexivity.
    repeat rewrite (proj2 (Rleb_false _ _)) by (rn; lra). rewrite (proj2 (Rltb_false 2000 0)), (proj2 (Rltb_false 0 0)) by lra. reflexivity. }
  split; [exact V|].
  set (ks := [ScSetPosition (N := RNum) (-1 : R); ScSetSpacing light_spacing; ScSetType TgLength; ScSetValue (N := RNum) light_length; ScSetWeight light_weight; ScTensionHorizontal; ScCatenary]).
  assert (E : snd (cs_Catenary (snd (cs_TensionHorizontal light))) = cs_run CatenarySolver_default ks) by reflexivity.
  rewrite E.
  assert (E' : cs_renew (cs_run CatenarySolver_default ks) = light).
  { unfold cs_renew. destruct (inputsS ks (@CatenarySolver_default RNum) default3_current) as (E1 & E2 & E3 & E4 & E5).
    rewrite E1, E2, E3, E4, E5. reflexivity. }
  assert (HR := history_repeatable ks). cbn zeta in HR. rewrite E' in HR. apply HR. left. exact V.
Qed.

(** ** A target that the left point meets exactly *)
Lemma stuck_loop : forall u c0 (f : R -> R) (l r : R), fits u c0 f -> l < r -> f r < f l -> 1 / 100 < r - l ->
  forall fuel s, lo_left s = mkPoint2d (N := RNum) l (f l) -> lo_right s = mkPoint2d (N := RNum) r (f r) ->
  twin (lo_catenary s) c0 -> (lo_iter s <= 101)%Z -> (101 <= lo_iter s + Z.of_nat fuel)%Z ->
  lo_iter (solve_loop u (f l) fuel s) = 101%Z.
Proof.
  intros u c0 f l r FI LR FLR D. induction fuel as [|n IH]; intros s EL ER T H1 H2; cbn [solve_loop]; [lia|].
  destruct (lo_iter s <=? 100)%Z eqn:E.
  - apply Z.leb_le in E. replace (fltb _ _) with true.
    2: { symmetry. rn. rewrite flit_R, lit001, EL, ER. cbn [p2x]. apply Rltb_true. rewrite Rabs_minus_sym, Rabs_pos_eq; lra. }
    cbn [andb]. destruct (pass_moved u c0 f (f l) s FI T) as (M & _ & I & T').
    assert (X : next_x f (f l) (lo_left s) (lo_right s) = l).
    { unfold next_x. rewrite EL, ER. cbn [p2x p2y]. field. lra. }
    assert (K : lo_left (solve_pass u (f l) s) = mkPoint2d (N := RNum) l (f l) /\ lo_right (solve_pass u (f l) s) = mkPoint2d (N := RNum) r (f r)).
    { destruct M as [y H|y H H3|y H H3|y H H3|y H]; try (exfalso; subst y; rewrite X, ?EL, ?ER in *; cbn [p2x] in *; lra); auto. }
    destruct K. apply IH; try assumption; rewrite I; lia.
  - apply Z.leb_gt in E. rewrite andb_false_r. lia.
Qed.

Definition exact_calls : list (SolverCall RNum) :=
  [ScSetSpacing light_spacing; ScSetWeight light_weight; ScSetType TgLength;
   ScSetValue (N := RNum) (flength light_spacing light_weight (2 / 10))].

Lemma exact_missed : exists ks (h : R), let s := cs_run (@CatenarySolver_default RNum) ks in
  c3_Validate (hung s h) = true /\ cs_type s = TgLength /\ c3_Length (hung s h) = cs_value s /\
  (fst (cs_TensionHorizontal s) : R) = -999999.
Proof.
  exists exact_calls, (2 / 10). set (s := cs_run _ _). cbn zeta.
  split; [apply cat_valid; [apply light_ok|cbn; rewrite Rabs_R0; lra|lra|]; destruct light_mags as (A & B);
          change (Vector3d_Magnitude (c3_spacing (cs_catenary s)) / 2 * Vector3d_Magnitude (c3_weight (cs_catenary s)) <= 2 / 10);
          change (c3_spacing (cs_catenary s)) with light_spacing; change (c3_weight (cs_catenary s)) with light_weight; rewrite A, B; lra|].
  split; [reflexivity|]. split; [reflexivity|].
  assert (F1 : flength light_spacing light_weight (22 / 100) < flength light_spacing light_weight (2 / 10)).
  { destruct light_mags as (A & B).
    assert (Q := flength_falls _ _ light_ok (2 / 10) (22 / 100)). cbn zeta in Q. rewrite A, B in Q. specialize (Q ltac:(lra) ltac:(lra)). lra. }
  assert (I : c3_current (cs_catenary s)) by (intros U; discriminate U).
  set (cat0 := c3_fresh ADPositive light_spacing (0 : R) light_weight).
  assert (TW : twin (cs_catenary s) cat0).
  { refine (conj I (conj _ (conj eq_refl (conj eq_refl eq_refl)))). intros U; discriminate U. }
  assert (FF : forall c, twin c cat0 -> fits UpdateCatenaryLength c (flength light_spacing light_weight)).
  { intros c T. eapply fits_ext; [apply update_length|]. apply fits_fair; [apply fair_length|exact T]. }
  set (v := flength light_spacing light_weight (2 / 10)).
  assert (R0 : fst (SolveFromLength (N := RNum) v (cs_catenary s)) = false).
  { unfold SolveFromLength.
    assert (M : tension_minimum (cs_catenary s) = 2 / 10).
    { unfold tension_minimum, c2_ConstantMinimum. change (c3_spacing (cs_catenary s)) with light_spacing.
      change (c3_weight (cs_catenary s)) with light_weight. destruct light_mags as (A & B). rewrite A, B. rn. lra. }
    rewrite M. destruct (FF _ TW (cs_catenary s) (2 / 10) (twin_refl _ I)) as (E1 & T1).
    destruct (UpdateCatenaryLength (cs_catenary s) (2 / 10)) as [y1 c1]. cbn [fst snd] in E1, T1. subst y1.
    destruct (fleb (n := RNum) v _); [reflexivity|]. destruct (fltb (n := RNum) _ v); [reflexivity|].
    rn. rewrite flit_R. replace (2 / 10 * (IZR 110 * powerRZ 10 (-2))) with (22 / 100) by (simpl; lra).
    assert (T1' := twin_trans _ _ _ T1 TW).
    destruct (FF _ T1' c1 (22 / 100) (twin_refl _ (proj1 T1))) as (E2 & T2).
    destruct (UpdateCatenaryLength c1 (22 / 100)) as [y2 c2]. cbn [fst snd] in E2, T2. subst y2.
    unfold solve_between. set (s0 := mkLoopState _ _ _ _ _).
    assert (L := stuck_loop UpdateCatenaryLength c2 (flength light_spacing light_weight) (2 / 10) (22 / 100)
      (FF c2 (twin_trans _ _ _ T2 T1')) ltac:(lra) F1 ltac:(lra) (Z.to_nat 102) s0 eq_refl eq_refl (twin_refl _ (proj1 T2)) ltac:(cbn; lia)
      ltac:(cbn [lo_iter s0]; rewrite Z2Nat.id; lia)).
    fold v in L. rewrite L. reflexivity. }
  unfold cs_TensionHorizontal. change (cs_ensure s) with (cs_Update s). unfold cs_Update. change (cs_type s) with TgLength.
  cbn iota. change (cs_value s) with v. destruct (SolveFromLength (N := RNum) v (cs_catenary s)) as [b c]. cbn [fst] in R0. subst b.
  cbn [fst]. unfold ferr. rn. reflexivity.
Qed.
