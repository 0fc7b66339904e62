(** A cable whose strain is known in real arithmetic. *)
From Coq Require Import ZArith Bool List Reals Lra.
From Verif Require Import Num NumFacts ModelBase ModelCable ModelPolynomial ProofPolynomial ModelThermal ModelElongation SpecElong
  ProofReal ProofThermalCases SampleElongReal.
Import ListNotations.
Open Scope R_scope.

(** A shell with load-strain and creep lines of the slope 131072 up to the load 65536, the
    moduli 1000 and 131072 and the expansion 1/100000. *)
Definition l_line : list RNum := [0; 131072; 0; 0; 0].
Definition l_comp : CableComponent RNum :=
  mkCableComponent (N := RNum) 0 (1 / 100000) l_line l_line 65536 65536 1000 131072 1 1.
Definition l_cable : Cable RNum := mkCable (N := RNum) 0 1 r_none l_comp 1 0 [] 1000 70 1.

(** No stretch, and the temperature [t]. *)
Definition l_setters (t : R) : list (EmCall RNum) :=
  [EmSetCable (Some (sg_set_base (Some l_cable))); EmSetState (r_state PTLoadStrain t); EmSetStretch (r_stretch PTLoadStrain 0)].

Lemma l_value : forall x : R, Y_list (N := RNum) l_line x = 131072 * x.
Proof. intros x. rewrite Y_list_R. cbn. ring. Qed.
Lemma l_slope : forall x : R, Y_list (N := RNum) (derivative_loop (N := RNum) l_line 0) x = 131072.
Proof. intros x. rewrite Y_list_R, derivative_list_R. cbn. ring. Qed.
Lemma l_shifted : forall y x : R, Y_list (N := RNum) [(0 - y)%R; 131072; 0; 0; 0] x = 131072 * x - y.
Proof. intros y x. rewrite Y_list_R. cbn. ring. Qed.

Lemma l_X : forall y : R, poly_X l_line y = Ok (y / 131072).
Proof.
  intros y. unfold poly_X, Polynomial_X. cbn [Polynomial_new Polynomial_Update py_updated UpdateDerivative coeffs py_coefficients obind omap fst py_derivative].
  unfold l_line at 1. cbn [obind omap fst]. f_equal.
  set (g := flit 1 (-1)). set (p := (_ / _)%num).
  assert (P : 0 < p). { unfold p. rn. rewrite ?Rpow_2. lra. }
  assert (Z : forall x (z : R), (feqb (n := RNum) (Y_list (N := RNum) (derivative_loop (N := RNum) l_line 0) x) (fofZ 0)) = false).
  { intros x z. rewrite l_slope. apply Reqb_false. rn. lra. }
  assert (S1 : forall n (a b c : R), p < Rabs b ->
    X_loop (N := RNum) (S n) p ((0 - y)%R :: [131072; 0; 0; 0]) (derivative_loop (N := RNum) l_line 0) a b c =
    X_loop (N := RNum) n p ((0 - y)%R :: [131072; 0; 0; 0]) (derivative_loop (N := RNum) l_line 0)
      (a - (131072 * a - y) / 131072) (131072 * a - y) (a - (131072 * a - y) / 131072)).
  { intros n a b c B. cbn [X_loop]. assert (T : fltb (n := RNum) p (fabs (n := RNum) b) = true) by (apply Rltb_true; exact B). rewrite T.
    rewrite (Z c 0), l_shifted, l_slope. reflexivity. }
  assert (S2 : forall n (a b c : R), Rabs b <= p -> X_loop (N := RNum) (S n) p ((0 - y)%R :: [131072; 0; 0; 0]) (derivative_loop (N := RNum) l_line 0) a b c = a).
  { intros n a b c B. cbn [X_loop]. assert (T : fltb (n := RNum) p (fabs (n := RNum) b) = false) by (apply Rltb_false; exact B). rewrite T. reflexivity. }
  change (X_loop (N := RNum) (S (S (S (S 96)))) p ((0 - y)%R :: [131072; 0; 0; 0]) (derivative_loop (N := RNum) l_line 0) g ferr g = y / 131072).
  rewrite S1.
  2: { unfold p. rn. rewrite ?Rpow_2, ferr_R, Rabs_left; lra. }
  set (b := 131072 * g - y). assert (X1 : g - b / 131072 = y / 131072) by (unfold b; rfield).
  rewrite X1. destruct (Rlt_le_dec p (Rabs b)) as [L|L].
  - rewrite S1 by exact L. replace (131072 * (y / 131072) - y) with 0 by field.
    rewrite S2 by (rewrite Rabs_R0; lra). rfield.
  - rewrite S2 by exact L. reflexivity.
Qed.

Lemma l_strain_poly : forall th y : R, StrainPolynomial l_comp l_line th y = Ok (y / 131072 + th).
Proof.
  intros th y. unfold StrainPolynomial. rewrite l_X. cbn [obind]. f_equal. unfold ConvertToStrain. cbn [cc_scale_x l_comp]. rn. rring.
Qed.

Lemma l_modulus : ModulusExtrapolate l_comp l_line (65536 : RNum) = Ok (131072 : RNum).
Proof.
  unfold ModulusExtrapolate. unfold l_line at 1. rewrite l_strain_poly. cbn [obind]. f_equal.
  unfold SlopePolynomial, poly_Slope. rewrite l_slope. cbn [cc_scale_x cc_scale_y l_comp]. rn.
  rewrite (proj2 (Rltb_false _ _)) by lra. field.
Qed.

(** The strain without load at the temperature [t]. *)
Definition l_thermal (t : R) : R := 1 / 100000 * (t - 70).

Definition l_regions (t : R) : Regions RNum :=
  mkRegions (mkPoint2d (N := RNum) (l_thermal t) 0) (mkPoint2d (N := RNum) (l_thermal t) 0)
    (mkPoint2d (N := RNum) (1 / 2 + l_thermal t) 65536).

Lemma l_points : forall t : R, PointsRegions l_comp (70 : RNum) l_line t (65536 : RNum) (0 : RNum) = Ok (l_regions t).
Proof.
  intros t. unfold PointsRegions. rewrite !l_strain_poly. cbn [obind]. unfold StrainLinearExtension, StrainThermal.
  cbn [cc_modulus_tension cc_expansion l_comp p2x p2y]. unfold l_regions, l_thermal. rn.
  f_equal. f_equal; f_equal; lra || (rfield).
Qed.

(** The component in the two updated states. *)
Definition l_shell (t : R) : CompModel RNum :=
  mkCompModel (Some (sk_set_base (Some l_comp))) (Some (r_state PTLoadStrain t)) (Some (r_stretch PTLoadStrain 0))
    (Some (70 : RNum)) (0 : RNum) (131072 : RNum) (131072 : RNum) (l_thermal t) (0 : RNum) (Some (l_regions t)) true true.

Lemma l_Load : forall t x : R, l_thermal t <= x -> cm_Load (l_shell t) x = Ok ((x - l_thermal t) * 131072, l_shell t).
Proof.
  intros t x H. unfold cm_Load, cm_query, cm_Update.
  change (cm_upd_stretch (l_shell t)) with true. cbn [obind]. change (cm_upd_state (l_shell t)) with true. cbn [obind].
  change (cm_state (l_shell t)) with (Some (r_state PTLoadStrain t)). cbn [deref obind]. change (cm_base (l_shell t)) with (Ok (A := CableComponent RNum) l_comp). cbn [obind].
  change (cm_points (l_shell t)) with (Some (l_regions t)). cbn [obind]. repeat f_equal.
  change (cm_mod_creep (l_shell t)) with (131072 : RNum). change (cm_mod_loadstrain (l_shell t)) with (131072 : RNum).
  change (cm_thermal_state (l_shell t)) with (l_thermal t : RNum).
  unfold LoadAt. cbn [l_regions rg_unloaded rg_start rg_end p2x p2y r_state st_type l_comp cc_modulus_compression cc_modulus_tension cc_loadstrain]. rn.
  assert (A1 : Rltb x (l_thermal t) = false) by (apply Rltb_false; lra). rewrite A1.
  assert (A2 : Rleb (l_thermal t) x = true) by (apply Rleb_true; lra). rewrite A2. cbn [andb].
  destruct (Rleb x (l_thermal t)) eqn:B; [apply Rleb_true in B; unfold LoadLinearExtension; cbn [p2x p2y]; rn; ring|].
  apply Rleb_false in B. assert (A3 : Rltb (l_thermal t) x = true) by (apply Rltb_true; lra). rewrite A3. cbn [andb].
  destruct (Rltb x (1 / 2 + l_thermal t)) eqn:C.
  - unfold LoadPolynomial, ConvertToStrainPolynomial. rewrite l_value. cbn [cc_scale_x cc_scale_y l_comp]. rn. field.
  - apply Rltb_false in C. assert (A4 : Rleb (1 / 2 + l_thermal t) x = true) by (apply Rleb_true; lra). rewrite A4.
    unfold LoadLinearExtension. cbn [p2x p2y]. rn. lra.
Qed.

(** The cable: after the setters and after an update. *)
Definition l_model (t : R) : ElongModel RNum :=
  mkElongModel (Some (sg_set_base (Some l_cable))) (r_state PTLoadStrain t) (r_stretch PTLoadStrain 0) CompModel_new
    (mkCompModel (Some (sk_set_base (Some l_comp))) None None (Some (70 : RNum)) ferr (131072 : RNum) (131072 : RNum)
       ferr ferr None false false) [] false false.
Definition l_updated (t : R) : ElongModel RNum :=
  mkElongModel (Some (sg_set_base (Some l_cable))) (r_state PTLoadStrain t) (r_stretch PTLoadStrain 0) CompModel_new
    (l_shell t) [mkPoint2d (N := RNum) (l_thermal t) 0; mkPoint2d (N := RNum) (l_thermal t) 0;
                 mkPoint2d (N := RNum) (1 / 2 + l_thermal t) 65536] true true.

Lemma l_on : sk_IsEnabled (sk_set_base (Some l_comp)) = Ok true.
Proof.
  unfold sk_IsEnabled, sk_set_base. cbn [sk_enabled deref]. f_equal. unfold has_nonzero, l_comp. cbn [cc_creep cc_loadstrain].
  unfold l_line. cbn [existsb]. rn. rewrite (proj2 (Reqb_false 131072 0)) by lra. cbn [negb]. rewrite !orb_true_r. reflexivity.
Qed.
Lemma l_off : sk_IsEnabled (sk_set_base (Some r_none)) = Ok false.
Proof. reflexivity. Qed.

Lemma l_run : forall t : R, em_run ElongModel_new (l_setters t) = Ok (l_model t).
Proof.
  intros t. unfold l_setters. cbn [em_run em_call]. unfold em_set_cable. unfold sg_core_on, sg_shell_on.
  change (sg_core (sg_set_base (Some l_cable))) with (sk_set_base (Some r_none)).
  change (sg_shell (sg_set_base (Some l_cable))) with (sk_set_base (Some l_comp)).
  rewrite l_off, l_on. cbn [obind set_component_model]. unfold cm_set_component.
  change (sk_base (sk_set_base (Some l_comp))) with (Some l_comp). cbn [deref obind].
  change (cc_creep l_comp) with l_line. change (cc_loadstrain l_comp) with l_line.
  change (cc_limit_creep l_comp) with (65536 : RNum). change (cc_limit_loadstrain l_comp) with (65536 : RNum).
  rewrite l_modulus. reflexivity.
Qed.

Lemma l_core_on : forall m, em_cable m = Some (sg_set_base (Some l_cable)) -> em_core_on m = Ok false.
Proof. intros m E. unfold em_core_on. rewrite E. cbn [deref obind]. exact l_off. Qed.
Lemma l_shell_on : forall m, em_cable m = Some (sg_set_base (Some l_cable)) -> em_shell_on m = Ok true.
Proof. intros m E. unfold em_shell_on. rewrite E. cbn [deref obind]. exact l_on. Qed.

Lemma l_Combined : forall m (t x : R), em_cable m = Some (sg_set_base (Some l_cable)) -> em_shell m = l_shell t ->
  l_thermal t <= x -> LoadCombined m x = Ok ((x - l_thermal t) * 131072, m).
Proof.
  intros m t x E1 E2 H. unfold LoadCombined, LoadCore, LoadShell, core_value, shell_value.
  rewrite (l_core_on m E1). cbn [obind]. rewrite (l_shell_on m E1). cbn [obind]. rewrite E2, (l_Load t x H). cbn [obind].
  rewrite <- E2. destruct m as [a b c d e f g h]. cbn [em_with_shell em_cable em_state em_stretch em_core em_shell em_points em_upd_state em_upd_stretch].
  f_equal. f_equal. rn. ring.
Qed.

Definition l_comp_model (t : R) (load thermal_state thermal_stretch : F RNum) (points : option (Regions RNum)) (a b : bool) : CompModel RNum :=
  mkCompModel (N := RNum) (Some (sk_set_base (Some l_comp))) (Some (r_state PTLoadStrain t)) (Some (r_stretch PTLoadStrain 0))
    (Some (70 : RNum)) load (131072 : RNum) (131072 : RNum) thermal_state thermal_stretch points a b.

Lemma l_stretched : forall t : R, UpdateStretch (l_comp_model t ferr ferr ferr None false false) =
  Ok (true, l_comp_model t 0 ferr 0 None false false).
Proof.
  intros t. unfold UpdateStretch. change (cm_base (l_comp_model t ferr ferr ferr None false false)) with (Ok (A := CableComponent RNum) l_comp).
  change (cm_tref (l_comp_model t ferr ferr ferr None false false)) with (Some (70 : RNum)).
  change (cm_stretch (l_comp_model t ferr ferr ferr None false false)) with (Some (r_stretch PTLoadStrain 0)).
  cbn [deref obind]. cbn [r_stretch ss_load ss_temperature].
  assert (Z : feqb (n := RNum) 0 (fofZ (N := RNum) 0) = true) by (rn; apply Reqb_true; reflexivity).
  rewrite Z. unfold with_stretch. unfold l_comp_model. f_equal. f_equal.
  cbn [cm_component cm_state cm_stretch cm_tref cm_load_stretch cm_mod_creep cm_mod_loadstrain cm_thermal_state cm_thermal_stretch cm_points cm_upd_state cm_upd_stretch].
  f_equal; unfold StrainThermal; cbn [l_comp cc_expansion]; rn; lra.
Qed.

Lemma l_stated : forall t : R, UpdateState (l_comp_model t 0 ferr 0 None false true) =
  Ok (l_comp_model t 0 (l_thermal t) 0 (Some (l_regions t)) false true).
Proof.
  intros t. unfold UpdateState. change (cm_base (l_comp_model t 0 ferr 0 None false true)) with (Ok (A := CableComponent RNum) l_comp).
  change (cm_tref (l_comp_model t 0 ferr 0 None false true)) with (Some (70 : RNum)).
  change (cm_state (l_comp_model t 0 ferr 0 None false true)) with (Some (r_state PTLoadStrain t)).
  change (cm_load_stretch (l_comp_model t 0 ferr 0 None false true)) with (0 : RNum).
  cbn [deref obind]. cbn [r_state st_type st_temperature limit_of obind].
  change (cc_limit_loadstrain l_comp) with (65536 : RNum). change (cc_loadstrain l_comp) with l_line.
  rewrite l_points. reflexivity.
Qed.

Lemma l_Points : forall t : R,
  cm_PointsRegions (cm_set_state (cm_set_stretch (em_shell (l_model t)) (Some (r_stretch PTLoadStrain 0))) (Some (r_state PTLoadStrain t))) =
  Ok ([rg_unloaded (l_regions t); rg_start (l_regions t); rg_end (l_regions t)], l_shell t).
Proof.
  intros t.
  change (cm_set_state (cm_set_stretch (em_shell (l_model t)) (Some (r_stretch PTLoadStrain 0))) (Some (r_state PTLoadStrain t)))
    with (l_comp_model t ferr ferr ferr None false false).
  unfold cm_PointsRegions, cm_Update. change (cm_upd_stretch (l_comp_model t ferr ferr ferr None false false)) with false. cbv iota.
  rewrite l_stretched. cbn [obind]. change (cm_upd_state (with_flags (l_comp_model t 0 ferr 0 None false false)
    (cm_upd_state (l_comp_model t 0 ferr 0 None false false)) true)) with false. cbv iota.
  change (with_flags (l_comp_model t 0 ferr 0 None false false) (cm_upd_state (l_comp_model t 0 ferr 0 None false false)) true)
    with (l_comp_model t 0 ferr 0 None false true).
  rewrite l_stated. reflexivity.
Qed.

Lemma l_sort : forall t : R, sort_x ([] ++ [rg_unloaded (l_regions t); rg_start (l_regions t); rg_end (l_regions t)]) =
  Ok [rg_unloaded (l_regions t); rg_start (l_regions t); rg_end (l_regions t)].
Proof.
  intros t. unfold sort_x. cbn [app l_regions rg_unloaded rg_start rg_end forallb p2x fold_right insert_x]. rn.
  rewrite !(proj2 (Reqb_true _ _)) by reflexivity. cbn [andb].
  rewrite (proj2 (Rltb_false (1 / 2 + l_thermal t) (l_thermal t))) by lra.
  cbn [insert_x p2x]. rn. rewrite (proj2 (Rltb_false (l_thermal t) (l_thermal t))) by lra. reflexivity.
Qed.

Lemma l_Update : forall t : R, em_Update (l_model t) = Ok (l_updated t).
Proof.
  intros t. unfold em_Update. change (em_upd_stretch (l_model t)) with false. unfold UpdateComponentsStretch.
  rewrite (l_core_on (l_model t)) by reflexivity. cbn [obind]. rewrite (l_shell_on (l_model t)) by reflexivity. cbn [obind].
  assert (Z0 : fofZ (N := RNum) 0 = (0 : RNum)) by (rn; reflexivity). rewrite ?Z0.
  change (ss_with_load (em_stretch (l_model t)) (0 : RNum)) with (r_stretch PTLoadStrain 0).
  cbn [em_with_shell em_stretch l_model r_stretch ss_load].
  assert (Z : feqb (n := RNum) 0 0 = true) by (rn; apply Reqb_true; reflexivity).
  rewrite Z. cbn [obind em_with_flags em_upd_state]. cbn [em_cable em_state em_stretch em_core em_shell em_points em_upd_stretch].
  unfold UpdateComponentsState. rewrite l_core_on by reflexivity. cbn [obind]. rewrite l_shell_on by reflexivity. cbn [obind].
  cbn [em_with_shell em_cable em_state em_stretch em_core em_shell em_points em_upd_state em_upd_stretch].
  unfold UpdatePointsRegions. rewrite l_core_on by reflexivity. cbn [obind]. rewrite l_shell_on by reflexivity. cbn [obind em_shell].
  match goal with |- context[cm_PointsRegions ?c] =>
    change c with (cm_set_state (cm_set_stretch (em_shell (l_model t)) (Some (r_stretch PTLoadStrain 0))) (Some (r_state PTLoadStrain t))) end.
  rewrite l_Points. cbn [obind]. rewrite l_sort. cbn [obind].
  cbn [em_with_shell em_cable em_state em_stretch em_core em_shell em_points em_upd_state em_upd_stretch].
  cbn [load_points l_regions rg_unloaded rg_start rg_end p2x].
  do 3 (rewrite (l_Combined _ t) by (reflexivity || lra); cbn [obind]).
  match goal with |- context[em_with_points ?m ?l] =>
    replace l with [mkPoint2d (N := RNum) (l_thermal t) 0; mkPoint2d (N := RNum) (l_thermal t) 0;
                    mkPoint2d (N := RNum) (1 / 2 + l_thermal t) 65536] end.
  - reflexivity.
  - repeat f_equal; rn; lra.
Qed.

Lemma l_Strain_pos : forall t y : R, 0 < y < 65536 ->
  StrainCombined (l_updated t) y = Ok (y / 131072 + l_thermal t, l_updated t).
Proof.
  intros t y H. unfold StrainCombined.
  change (em_points (l_updated t)) with [mkPoint2d (N := RNum) (l_thermal t) 0; mkPoint2d (N := RNum) (l_thermal t) 0;
    mkPoint2d (N := RNum) (1 / 2 + l_thermal t) 65536]. cbn [last p2y].
  rn. rewrite (proj2 (Rleb_false y 0)) by lra. rewrite (proj2 (Rleb_false 65536 y)) by lra.
  cbn [find_region p2y]. rn. rewrite (proj2 (Rleb_true 0 y)) by lra. rewrite (proj2 (Rleb_false y 0)) by lra. cbn [andb].
  rewrite (proj2 (Rleb_true y 65536)) by lra. cbn [obind].
  assert (P : fpow (n := RNum) 10 2 = 10 * 10) by (apply Rpow_2). rn. rewrite ?P.
  change 99%nat with (Datatypes.S (Datatypes.S 97)). cbn [strain_loop]. cbn [Point2d_default p2x p2y].
  match goal with |- context[fltb ?a (fabs ?b)] => assert (A1 : fltb (n := RNum) a (fabs (n := RNum) b) = true) end.
  { rn. apply Rltb_true. cbv [Point2d_default p2y ferr]. rn. rewrite Rabs_left by lra. lra. }
  rewrite A1. cbn [p2x p2y].
  match goal with |- context[LoadCombined _ ?x] => replace x with (y / 131072 + l_thermal t : F RNum) end.
  2: { rn. field. lra. }
  rewrite (l_Combined _ t) by (reflexivity || lra). cbn [obind].
  match goal with |- context[mkPoint2d _ ?v] => lazymatch v with context[131072] => replace v with (y : F RNum) by (rn; field) end end.
  destruct (strain_bracket _ _ _ _) as [lo hi]. cbn [strain_loop p2x p2y].
  match goal with |- context[fltb ?a (fabs ?b)] => assert (A2 : fltb (n := RNum) a (fabs (n := RNum) b) = false) end.
  { rn. apply Rltb_false. rewrite Rminus_diag_eq by reflexivity. rewrite Rabs_R0. lra. }
  rewrite A2. reflexivity.
Qed.

Lemma l_Strain_neg : forall t y : R, y <= 0 -> StrainCombined (l_updated t) y = Ok (l_thermal t : F RNum, l_updated t).
Proof.
  intros t y H. unfold StrainCombined.
  change (em_points (l_updated t)) with [mkPoint2d (N := RNum) (l_thermal t) 0; mkPoint2d (N := RNum) (l_thermal t) 0;
    mkPoint2d (N := RNum) (1 / 2 + l_thermal t) 65536]. cbn [last p2y].
  rn. rewrite (proj2 (Rleb_true y 0)) by lra. reflexivity.
Qed.

(** The strain of the cable at the temperature [t] under the load [y]. *)
Theorem l_strain : forall t y : R, 0 < y < 65536 ->
  em_Strain (l_model t) CTCombined y = Ok (y / 131072 + l_thermal t : F RNum, l_updated t).
Proof. intros t y H. unfold em_Strain. rewrite l_Update. cbn [obind]. apply l_Strain_pos; exact H. Qed.
Theorem l_strain_again : forall t y : R, 0 < y < 65536 ->
  em_Strain (l_updated t) CTCombined y = Ok (y / 131072 + l_thermal t : F RNum, l_updated t).
Proof. intros t y H. unfold em_Strain, em_Update. cbn [l_updated em_upd_stretch em_upd_state obind]. apply l_Strain_pos; exact H. Qed.
