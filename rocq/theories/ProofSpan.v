(** Level spans without wind, in exact arithmetic. *)
From Coq Require Import ZArith Bool List Reals Lra Lia.
From Verif Require Import Num NumFacts ModelBase ModelCatenary SpecCatenary ProofReal ProofVector HypFacts ProofCatenary
  SpecCatenary3 ProofCatenary3 ModelSolver SpecSolver ProofSolver ProofSolverReal ProofSolverTarget ProofSolverCases.
Import ListNotations.
Open Scope R_scope.

Definition span (a : R) : Vector3d RNum := mkVector3d (N := RNum) a (0 : R) (0 : R).
Definition hang (w : R) : Vector3d RNum := mkVector3d (N := RNum) (0 : R) (0 : R) w.
Definition level (a w h : R) : Catenary3d RNum := c3_fresh ADPositive (span a) (h : RNum) (hang w).

Section Level.
Variables a w : R.
Hypothesis Ha : 0 < a.
Hypothesis Hw : 0 < w.

Lemma level_ok : inputs_ok (span a) (hang w).
Proof. unfold inputs_ok, span, hang. cbn [v3x v3y v3z]. repeat split; lra. Qed.
Lemma level_mags : (Vector3d_Magnitude (span a) : R) = a /\ (Vector3d_Magnitude (hang w) : R) = w.
Proof. split; [apply mag_axis|apply mag_axis_z]; lra. Qed.

Lemma level_a : forall h, 0 < h -> W3 (level a w h) = w /\ b3 (level a w h) = 0 /\ a3 (level a w h) = a.
Proof.
  intros h Hh. set (c := level a w h). assert (U : usable3 c) by (apply (cat_usable _ _ h level_ok); lra).
  assert (W : W3 c = w) by (rewrite <- (magw c U); apply level_mags).
  assert (B : b3 c = 0) by (unfold b3; change (v3z (c3_spacing c)) with 0; ring).
  assert (S : S3 c = a) by (rewrite <- (mags c U); apply level_mags).
  split; [exact W|]. split; [exact B|]. unfold a3. rewrite S, B. replace (a * a - 0 * 0) with (a * a) by ring. apply sqrt_square. lra.
Qed.

Lemma level_length : forall h, 0 < h -> (c3_Length (level a w h) : R) = glen a (h / w).
Proof.
  intros h Hh. change (c3_Length (level a w h)) with (flength (span a) (hang w) h). rewrite (flength_R _ _ h level_ok Hh).
  destruct (level_a 1 Rlt_0_1) as (W & B & A). unfold level in *. rewrite W, B, A.
  rewrite Rmult_0_l, Rplus_0_l. apply sqrt_square. left. apply glen_pos; [lra|]. apply Rdiv_lt_0_compat; lra.
Qed.

Lemma level_average : forall h, 0 < h ->
  h <= c3_TensionAverage (level a w h) 100 <= h * cosh (a * w / (2 * h)).
Proof.
  intros h Hh. set (c := level a w h). assert (U : usable3 c) by (apply (cat_usable _ _ h level_ok); lra).
  assert (I : c3_current c) by (intros V; discriminate V).
  set (d := c3_catenary_2d (c3_ensure c)).
  pose proof (average_points d (d_current c I) (d_h_pos c I U) (d_w_pos c I U) (d_a_pos c I U) 100 eq_refl) as P.
  pose proof (d_tension c I) as T. fold d in T. change (c3_tension_horizontal c) with h in T. rewrite T in P.
  change (c3_TensionAverage c 100) with (c2_TensionAverage d 100). split; [apply P|].
  apply Rle_trans with (c2_TensionMax d); [apply P|]. right.
  rewrite (tensionmax_R d (d_current c I)).
  pose proof (d_spacing c I U) as S. fold d in S. destruct (level_a h Hh) as (W & B & A). fold c in W, B, A. rewrite B, A in S.
  pose proof (d_weight c I U) as WE. fold d in WE. rewrite W in WE.
  rewrite S. cbn [v2y]. destruct (Rle_dec 0 0) as [_|N]; [|exfalso; apply N; lra].
  rewrite (tension_R d (d_current c I)) by (rewrite ?T, ?WE; assumption). rewrite ct_0. rewrite T. f_equal.
  assert (CU : cu d = 0). { unfold cu. rewrite S. cbn [v2x v2y]. replace (0 * cz d / (a * sinh (cz d))) with 0 by (unfold Rdiv; ring). transitivity (arcsinh (sinh 0)); [rewrite sinh_0; reflexivity|apply arcsinh_sinh]. }
  rewrite CU. rewrite Rminus_0_l, cosh_neg. f_equal. unfold cz, ck. rewrite S, T, WE. cbn [v2x]. field. lra.
Qed.

Lemma level_minimum : forall h, (tension_minimum (level a w h) : R) = a / 2 * w.
Proof.
  intros h. unfold tension_minimum, c2_ConstantMinimum. change (c3_spacing (level a w h)) with (span a).
  change (c3_weight (level a w h)) with (hang w). rewrite (proj1 level_mags), (proj2 level_mags). rn. reflexivity.
Qed.

Lemma level_valid : forall h, a / 2 * w <= h -> c3_Validate (level a w h) = true.
Proof.
  intros h H. assert (0 < a / 2 * w) by nra. apply cat_valid.
  - exact level_ok.
  - cbn [span v3z]. rewrite Rabs_R0. lra.
  - lra.
  - rewrite (proj1 level_mags), (proj2 level_mags). exact H.
Qed.

Lemma level_invalid : forall h, h < a / 2 * w -> c3_Validate (level a w h) = false.
Proof.
  intros h H. destruct (c3_Validate (level a w h)) eqn:E; [|reflexivity]. exfalso.
  destruct (cat_Validate _ _ _ E) as (_ & _ & K). rewrite (proj1 level_mags), (proj2 level_mags) in K. lra.
Qed.

End Level.

(** ** Differences of lengths *)

(** sinh z / z rises faster than z^2 / 6. *)
Lemma shc_deriv : forall z, 0 < z ->
  derivable_pt_lim (fun z => sinh z / z) z ((z * cosh z - sinh z) / (z * z)).
Proof.
  intros z Hz. assert (D := derivable_pt_lim_div sinh id z (cosh z) 1 (derivable_pt_lim_sinh z) (derivable_pt_lim_id z) ltac:(unfold id; lra)).
  unfold div_fct, id in D. replace ((z * cosh z - sinh z) / (z * z)) with ((cosh z * z - 1 * sinh z) / Rsqr z); [exact D|].
  unfold Rsqr. field. lra.
Qed.

Lemma excess_deriv : forall x, derivable_pt_lim (fun z => z * cosh z - sinh z) x (x * sinh x).
Proof.
  intros x. replace (x * sinh x) with ((1 * cosh x + x * sinh x) - cosh x) by ring.
  apply derivable_pt_lim_minus; [|apply derivable_pt_lim_sinh].
  apply (derivable_pt_lim_mult id cosh); [apply derivable_pt_lim_id|apply derivable_pt_lim_cosh].
Qed.

Lemma excess_ge : forall z, 0 < z -> z * z * z / 3 <= z * cosh z - sinh z.
Proof.
  intros z Hz.
  assert (D : forall x, 0 <= x <= z -> derivable_pt_lim (fun z => (z * cosh z - sinh z) - z * z * z / 3) x (x * sinh x - x * x)).
  { intros x _. apply derivable_pt_lim_minus; [apply excess_deriv|].
    replace (x * x) with (((1 * x + x * 1) * x + x * x * 1) * / 3 + x * x * x * 0) by field.
    apply (derivable_pt_lim_mult (fun z => z * z * z) (fun _ => / 3)); [|apply derivable_pt_lim_const].
    apply (derivable_pt_lim_mult (fun z => z * z) id); [|apply derivable_pt_lim_id].
    apply (derivable_pt_lim_mult id id); apply derivable_pt_lim_id. }
  destruct (MVT_cor2 _ _ 0 z Hz D) as (c & E & C). rewrite sinh_0 in E. assert (G := sinh_gt c ltac:(lra)).
  assert (0 <= (c * sinh c - c * c) * (z - 0)) by (apply Rmult_le_pos; nra). lra.
Qed.

Lemma shc_rises : forall u v, 0 < u -> u < v -> (v * v - u * u) / 6 <= sinh v / v - sinh u / u.
Proof.
  intros u v Hu Huv.
  assert (D : forall x, u <= x <= v -> derivable_pt_lim (fun z => sinh z / z - z * z / 6) x ((x * cosh x - sinh x) / (x * x) - x / 3)).
  { intros x Hx. apply derivable_pt_lim_minus; [apply shc_deriv; lra|].
    replace (x / 3) with ((1 * x + x * 1) * / 6 + x * x * 0) by field.
    apply (derivable_pt_lim_mult (fun z => z * z) (fun _ => / 6)); [|apply derivable_pt_lim_const].
    apply (derivable_pt_lim_mult id id); apply derivable_pt_lim_id. }
  destruct (MVT_cor2 _ _ u v Huv D) as (c & E & C).
  assert (G := excess_ge c ltac:(lra)).
  assert (Q : c / 3 <= (c * cosh c - sinh c) / (c * c)).
  { apply Rmult_le_reg_r with (c * c); [nra|]. replace ((c * cosh c - sinh c) / (c * c) * (c * c)) with (c * cosh c - sinh c) by (field; lra). nra. }
  assert (0 <= ((c * cosh c - sinh c) / (c * c) - c / 3) * (v - u)) by (apply Rmult_le_pos; lra). lra.
Qed.

Lemma glen_shc : forall a k, 0 < a -> 0 < k -> glen a k = a * (sinh (a / (2 * k)) / (a / (2 * k))).
Proof. intros a k H1 H2. unfold glen. field. lra. Qed.

Lemma glen_gap : forall a k1 k2, 0 < a -> 0 < k1 -> k1 < k2 ->
  a * ((a / (2 * k1)) * (a / (2 * k1)) - (a / (2 * k2)) * (a / (2 * k2))) / 6 <= glen a k1 - glen a k2.
Proof.
  intros a k1 k2 H H1 H2. rewrite !glen_shc by lra.
  assert (Q : a / (2 * k2) < a / (2 * k1)). { apply Rmult_lt_compat_l; [exact H|]. apply Rinv_lt_contravar; nra. }
  assert (P : 0 < a / (2 * k2)) by (apply Rdiv_lt_0_compat; lra).
  assert (S := shc_rises _ _ P Q). nra.
Qed.

(** cosh on [0, 1]. *)
Lemma exp_1 : exp 1 <= 3.
Proof. exact exp_le_3. Qed.
Lemma cosh_small : forall z, 0 <= z <= 1 -> cosh z <= 2.
Proof.
  intros z H. unfold cosh. assert (exp z <= exp 1) by (destruct (Req_dec z 1) as [->|N]; [lra|left; apply exp_increasing; lra]).
  assert (exp (- z) <= 1) by (rewrite <- exp_0; destruct (Req_dec z 0) as [->|N]; [rewrite Ropp_0; lra|left; apply exp_increasing; lra]).
  assert (E := exp_1). lra.
Qed.

(** ** Average tensions *)
Lemma sum_compare : forall (c d : Catenary2d RNum) (e : R) n, (forall p : R, c2_Tension c p <= c2_Tension d p + e) ->
  forall k i (s t : R), tension_sum c n i k s - s <= tension_sum d n i k t - t + INR k * e.
Proof.
  intros c d e n B. induction k as [|k IH]; intros i s t.
  - cbn. lra.
  - cbn [tension_sum]. rewrite S_INR. rn. specialize (B (IZR i / IZR n)). 
    specialize (IH (i + 1)%Z (s + c2_Tension c (IZR i / IZR n)) (t + c2_Tension d (IZR i / IZR n))). lra.
Qed.

Lemma root_close : forall x y z, 0 <= x <= y -> sqrt (y * y + z * z) <= sqrt (x * x + z * z) + (y - x).
Proof.
  intros x y z H. set (p := sqrt (x * x + z * z)). assert (Hp : p * p = x * x + z * z) by (apply sqrt_sqrt; nra).
  assert (Pp : x <= p). { unfold p. rewrite <- (sqrt_square x) at 1 by lra. apply sqrt_le_1_alt. nra. }
  rewrite <- (sqrt_square (p + (y - x))) by lra. apply sqrt_le_1_alt. nra.
Qed.

Section Average.
Variables a w : R.
Hypothesis Ha : 0 < a.
Hypothesis Hw : 0 < w.

Lemma level_tension : forall h p : R, 0 < h ->
  c2_Tension (c3_catenary_2d (c3_ensure (level a w h))) p =
  sqrt (h * h + ((2 * p - 1) * (w / 2 * glen a (h / w))) * ((2 * p - 1) * (w / 2 * glen a (h / w)))).
Proof.
  intros h p Hh. set (c := level a w h). assert (U : usable3 c) by (apply (cat_usable _ _ h (level_ok a w Ha Hw)); lra).
  assert (I : c3_current c) by (intros V; discriminate V).
  set (d := c3_catenary_2d (c3_ensure c)).
  pose proof (d_tension c I) as T. fold d in T. change (c3_tension_horizontal c) with h in T.
  pose proof (d_spacing c I U) as S. fold d in S. destruct (level_a a w Ha Hw h Hh) as (W & B & A). fold c in W, B, A. rewrite B, A in S.
  pose proof (d_weight c I U) as WE. fold d in WE. rewrite W in WE.
  rewrite (tension_R d (d_current c I)) by (rewrite ?T, ?WE; assumption). rewrite T, cosh_sqrt.
  assert (CU : cu d = 0). { unfold cu. rewrite S. cbn [v2x v2y]. replace (0 * cz d / (a * sinh (cz d))) with 0 by (unfold Rdiv; ring). transitivity (arcsinh (sinh 0)); [rewrite sinh_0; reflexivity|apply arcsinh_sinh]. }
  assert (CZ : cz d = a / (2 * (h / w))). { unfold cz, ck. rewrite S, T, WE. cbn [v2x]. field. lra. }
  rewrite sinh_ct, CU, Rplus_0_l, Rminus_0_l, sinh_neg, CZ. unfold glen.
  set (z := sinh _). rewrite <- (sqrt_square h) at 1 by lra. rewrite <- sqrt_mult_alt by nra. f_equal. field. lra.
Qed.

Lemma level_average_lipschitz : forall x h, 0 < x <= h -> glen a (h / w) <= glen a (x / w) ->
  c3_TensionAverage (level a w h) 100 <= c3_TensionAverage (level a w x) 100 + (h - x).
Proof.
  intros x h H G. unfold c3_TensionAverage.
  set (d := c3_catenary_2d (c3_ensure (level a w h))). set (c := c3_catenary_2d (c3_ensure (level a w x))).
  assert (B : forall p : R, c2_Tension d p <= c2_Tension c p + (h - x)).
  { intros p. unfold d, c. rewrite !level_tension by lra.
    eapply Rle_trans; [|apply Rplus_le_compat_r; apply sqrt_le_1_alt with (x := x * x + ((2 * p - 1) * (w / 2 * glen a (h / w))) * ((2 * p - 1) * (w / 2 * glen a (h / w))))].
    - apply root_close. lra.
    - assert (P1 : 0 < glen a (h / w)) by (apply glen_pos; [exact Ha|apply Rdiv_lt_0_compat; lra]).
      set (g := glen a (h / w)) in *. set (g' := glen a (x / w)) in *.
      apply Rplus_le_compat_l. replace ((2 * p - 1) * (w / 2 * g) * ((2 * p - 1) * (w / 2 * g))) with (((2 * p - 1) * (w / 2)) * ((2 * p - 1) * (w / 2)) * (g * g)) by ring.
      replace ((2 * p - 1) * (w / 2 * g') * ((2 * p - 1) * (w / 2 * g'))) with (((2 * p - 1) * (w / 2)) * ((2 * p - 1) * (w / 2)) * (g' * g')) by ring.
      apply Rmult_le_compat_l; [apply Rle_0_sqr|]. nra. }
  unfold c2_TensionAverage. cbn [Z.eqb Z.ltb Z.compare].
  assert (B' : forall p : R, c2_Tension (c2_ensure d) p <= c2_Tension (c2_ensure c) p + (h - x)).
  { intros p. specialize (B p). revert B. unfold d, c. 
    assert (Q : forall y, 0 < y -> c2_Tension (c2_ensure (c3_catenary_2d (c3_ensure (level a w y)))) p = c2_Tension (c3_catenary_2d (c3_ensure (level a w y))) p).
    { intros y Hy. unfold c2_Tension. rewrite (ens (c3_catenary_2d (c3_ensure (level a w y)))); [reflexivity|]. apply d_current. intros V; discriminate V. }
    rewrite !Q by lra. trivial. }
  set (n := Z.to_nat (100 + 1)). pose proof (sum_compare (c2_ensure d) (c2_ensure c) (h - x) 100 B' n 0%Z 0 0) as K.
  assert (EN : INR n = 101). { unfold n. rewrite INR_IZR_INZ, Z2Nat.id by lia. reflexivity. }
  rewrite EN in K. rn. 
  replace (IZR 100 + IZR 1) with 101 by lra. 
  set (u := tension_sum (c2_ensure d) _ _ _ _) in *. set (v := tension_sum (c2_ensure c) _ _ _ _) in *. 
  clearbody u v. revert K. change (u - 0 <= v - 0 + 101 * (h - x) -> u / 101 <= v / 101 + (h - x)). lra.
Qed.

End Average.
