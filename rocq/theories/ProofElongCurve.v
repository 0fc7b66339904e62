(** The component elongation model in the polynomial region. *)
From Coq Require Import ZArith Bool List Reals Lra Lia Psatz.
From Verif Require Import Num NumFacts ModelBase ModelCable ModelPolynomial ModelThermal ModelElongation SpecElong ProofReal
  ProofThermalCases ProofElong ProofElongModel ProofElongHistory ProofElongReal SpecPolynomial SpecCurve ProofPolynomial
  ProofNewton ProofCurve.
Import ListNotations.
Open Scope R_scope.

(** The coefficients of the type of a state. *)
Definition curve_of {N : Num} (b : CableComponent N) (t : PolynomialType) : list N :=
  match t with PTCreep => cc_creep b | _ => cc_loadstrain b end.

(** When the state is updated, the points lie on the curve of the state. *)
Definition on_curve (m : CompModel RNum) : Prop :=
  cm_upd_state m = true -> exists b s t limit load r,
    cm_base m = Ok b /\ cm_state m = Some s /\ cm_tref m = Some t /\ limit_of b (st_type s) = Ok limit /\
    cm_points m = Some r /\ PointsRegions b t (curve_of b (st_type s)) (st_temperature s) limit load = Ok r /\
    cm_thermal_state m = StrainThermal b t (st_temperature s).

Lemma on_curve_Update : forall (m p : CompModel RNum) ok, on_curve m -> cm_Update m = Ok (ok, p) -> on_curve p.
Proof.
  intros m p ok G E. intros U. unfold cm_Update in E.
  assert (P : exists n ok1, (if cm_upd_stretch m then Ok (true, m)
      else do (ok, m) <- UpdateStretch m; Ok (ok, with_flags m (cm_upd_state m) ok)) = Ok (ok1, n) /\
    cm_component n = cm_component m /\ cm_state n = cm_state m /\ cm_tref n = cm_tref m /\ cm_upd_state n = cm_upd_state m /\
    cm_points n = cm_points m /\ cm_thermal_state n = cm_thermal_state m).
  { destruct (cm_upd_stretch m) eqn:S; [exists m, true; auto 10|].
    destruct (UpdateStretch m) as [(ok1, n)| |] eqn:V; cbn [obind] in *; try discriminate E.
    destruct (UpdateStretch_shape _ _ _ _ V) as (th & l & ->). eexists; eexists. split; [reflexivity|]. auto 10. }
  destruct P as (n & ok1 & P1 & P2 & P3 & P4 & P5 & P6 & P7). rewrite P1 in E. cbn [obind] in E.
  assert (Bn : cm_base n = cm_base m) by (unfold cm_base; rewrite P2; reflexivity).
  assert (Gn : on_curve n). { unfold on_curve. rewrite Bn, P3, P4, P5, P6, P7. exact G. }
  destruct ok1; [destruct (cm_upd_state n) eqn:W|].
  - injection E as <- <-. exact (Gn W).
  - unfold UpdateState in E. destruct (cm_state n) as [s|] eqn:Sn; cbn [deref obind] in E; try discriminate E.
    destruct (cm_base n) as [b| |] eqn:B; cbn [obind] in E; try discriminate E.
    destruct (cm_tref n) as [t|] eqn:Tn; cbn [deref obind] in E; try discriminate E.
    destruct (limit_of b (st_type s)) as [l| |] eqn:L; cbn [obind] in E; try discriminate E.
    match type of E with context [PointsRegions ?x1 ?x2 ?x3 ?x4 l ?x6] =>
      destruct (PointsRegions x1 x2 x3 x4 l x6) as [r| |] eqn:Pr end; cbn [obind] in E; try discriminate E.
    injection E as <- <-. exists b, s, t, l, (cm_load_stretch n), r.
    cbn [with_flags cm_base cm_state cm_tref cm_points cm_thermal_state cm_component].
    unfold cm_base in *. cbn [with_flags cm_component]. repeat (split; [reflexivity || congruence|]). split; [exact Pr|reflexivity].
  - injection E as <- <-. apply Gn. exact U.
Qed.

Lemma on_curve_cleared : forall m : CompModel RNum, cm_upd_state m = false -> on_curve m.
Proof. intros m H U. congruence. Qed.

Lemma on_curve_query : forall (m : CompModel RNum) f v p, on_curve m -> cm_query m f = Ok (v, p) -> on_curve p.
Proof.
  intros m f v p G E. unfold cm_query in E. destruct (cm_Update m) as [(ok, n)| |] eqn:U; cbn [obind] in E; try discriminate E.
  pose proof (on_curve_Update m n ok G U) as Gn.
  destruct ok; [|injection E as _ <-; exact Gn].
  destruct (deref (cm_state n)) as [s| |]; cbn [obind] in E; try discriminate E.
  destruct (cm_base n) as [b| |]; cbn [obind] in E; try discriminate E.
  destruct (cm_points n) as [r|]; [|discriminate E].
  destruct (f b (st_type s) r n) as [w| |]; cbn [obind] in E; try discriminate E. injection E as _ <-. exact Gn.
Qed.

Lemma on_curve_call : forall (m p : CompModel RNum) c, on_curve m -> cm_call m c = Ok p -> on_curve p.
Proof.
  intros m p c G E. destruct c as [c|s|s|t|e|e|y| | |w]; cbn [cm_call] in E.
  - apply on_curve_cleared. destruct c as [c|]; cbn [cm_set_component] in E.
    + destruct (deref (sk_base c)) as [b| |] eqn:B; cbn [obind] in E; try discriminate E.
      destruct (ModulusExtrapolate b (cc_creep b) (cc_limit_creep b)) as [mc| |]; cbn [obind] in E; try discriminate E.
      destruct (ModulusExtrapolate b (cc_loadstrain b) (cc_limit_loadstrain b)) as [ml| |]; cbn [obind] in E; try discriminate E.
      injection E as <-. reflexivity.
    + injection E as <-. reflexivity.
  - injection E as <-. apply on_curve_cleared. reflexivity.
  - injection E as <-. apply on_curve_cleared. reflexivity.
  - injection E as <-. apply on_curve_cleared. reflexivity.
  - destruct (cm_Load m e) as [(v, q)| |] eqn:Q; try discriminate E. injection E as <-. eapply on_curve_query; eassumption.
  - destruct (cm_Slope m e) as [(v, q)| |] eqn:Q; try discriminate E. injection E as <-. eapply on_curve_query; eassumption.
  - destruct (cm_Strain m y) as [(v, q)| |] eqn:Q; try discriminate E. injection E as <-. eapply on_curve_query; eassumption.
  - unfold cm_StrainThermal in E. destruct (cm_Update m) as [(ok, q)| |] eqn:Q; try discriminate E. injection E as <-.
    eapply on_curve_Update; eassumption.
  - unfold cm_PointsRegions in E. destruct (cm_Update m) as [(ok, q)| |] eqn:Q; try discriminate E.
    pose proof (on_curve_Update _ _ _ G Q) as Gq. cbn [obind] in E.
    destruct ok; [destruct (cm_points q)|]; injection E as <-; exact Gq.
  - unfold cm_Validate in E. destruct (cm_inputs_valid m); [|injection E as <-; exact G].
    destruct (cm_Update m) as [(ok, q)| |] eqn:Q; try discriminate E. pose proof (on_curve_Update _ _ _ G Q) as Gq.
    cbn [obind] in E. destruct ok; [|injection E as <-; exact Gq].
    destruct (cm_base q) as [b| |]; cbn [obind] in E; try discriminate E.
    destruct (polynomials_valid w b) as [x| |]; cbn [obind] in E; try discriminate E. injection E as <-. exact Gq.
Qed.

Lemma on_curve_run : forall cs (m p : CompModel RNum), on_curve m -> cm_run m cs = Ok p -> on_curve p.
Proof.
  induction cs as [|c cs IH]; intros m p G E; cbn [cm_run] in E.
  { injection E as <-. exact G. }
  destruct (cm_call m c) as [n| |] eqn:C; cbn [obind] in E; try discriminate E.
  apply (IH n); [|exact E]. apply (on_curve_call m n c); assumption.
Qed.

Lemma on_curve_new : on_curve CompModel_new.
Proof. intros H. discriminate H. Qed.

(** ** The queries of a component with points *)

Section Query.
Variables (cs : list (CmCall RNum)) (m m1 : CompModel RNum) (b : CableComponent RNum) (s : CableState RNum)
  (pu ps pe : Point2d RNum).
Hypothesis Run : cm_run CompModel_new cs = Ok m.
Hypothesis Base : cm_base m = Ok b.
Hypothesis State : cm_state m = Some s.
Hypothesis Points : cm_PointsRegions m = Ok ([pu; ps; pe], m1).
Hypothesis Y0 : 0 <= p2y ps.

Lemma query_form : exists t limit load,
  cm_tref m = Some t /\ limit_of b (st_type s) = Ok limit /\
  PointsRegions b t (curve_of b (st_type s)) (st_temperature s) limit load = Ok (mkRegions pu ps pe) /\
  p2y pu = 0 /\ p2x pu = p2x ps + (0 - p2y ps) / cc_modulus_tension b /\
  exists mc ml, (cc_creep b <> [] -> 100000 <= mc) /\ (cc_loadstrain b <> [] -> 100000 <= ml) /\
  let th := StrainThermal b t (st_temperature s) in
  (forall e, cm_Load m e = Ok (LoadAt b mc ml (st_type s) (mkRegions pu ps pe) th e, m1) /\
             cm_Load m1 e = Ok (LoadAt b mc ml (st_type s) (mkRegions pu ps pe) th e, m1)) /\
  (forall v, cm_Strain m v = omap (fun x => (x, m1)) (StrainAt b mc ml (st_type s) (mkRegions pu ps pe) th v) /\
             cm_Strain m1 v = omap (fun x => (x, m1)) (StrainAt b mc ml (st_type s) (mkRegions pu ps pe) th v)) /\
  cm_StrainThermal m = Ok (th, m1).
Proof.
  pose proof (cgood_run cs _ _ cgood_new Run) as G. pose proof (on_curve_run cs _ _ on_curve_new Run) as G'.
  unfold cm_PointsRegions in Points. destruct (cm_Update m) as [(ok, n)| |] eqn:U; cbn [obind] in Points; try discriminate Points.
  destruct ok.
  2: { exfalso. injection Points as <- <- <- _. unfold Point2d_default in Y0. cbn [p2y] in Y0. rewrite ferr_R in Y0. lra. }
  pose proof (cgood_Update _ _ _ G U) as (G1 & G2). pose proof (on_curve_Update _ _ _ G' U) as G3.
  destruct (Update_shape _ _ _ _ U) as (K & F).
  destruct (F eq_refl) as (F1 & F2). destruct (ckey_split _ _ K) as (K1 & K2 & _).
  destruct (base_key _ _ _ K1) as (B1 & B2 & B3).
  destruct (G3 F1) as (b' & s' & t & limit & load & r & H1 & H2 & H3 & H4 & H5 & H6 & H7).
  assert (b' = b) by congruence. subst b'. assert (s' = s) by congruence. subst s'.
  destruct (G2 F1) as (b' & r' & I1 & I2 & I3 & I4). assert (b' = b) by congruence. subst b'.
  assert (r' = r) by congruence. subst r'.
  rewrite H5 in Points. injection Points as <- <- <- <-.
  assert (Tm : cm_tref n = cm_tref m).
  { unfold skey in K1. injection K1. intros. assumption. }
  exists t, limit, load. split; [congruence|]. split; [exact H4|].
  assert (Re : mkRegions (rg_unloaded r) (rg_start r) (rg_end r) = r) by (destruct r; reflexivity). rewrite Re.
  split; [exact H6|]. split; [exact I3|]. split; [exact I4|].
  exists (cm_mod_creep n), (cm_mod_loadstrain n).
  destruct (G1 b H1) as (M1 & M2). split; [exact M1|]. split; [exact M2|]. cbn zeta.
  assert (U' := Update_again _ _ _ U). rewrite <- H7.
  split; [|split].
  - intros e. unfold cm_Load, cm_query. rewrite U, U'. cbn [obind]. rewrite H2. cbn [deref obind]. rewrite H1. cbn [obind].
    rewrite H5. split; reflexivity.
  - intros v. unfold cm_Strain, cm_query. rewrite U, U'. cbn [obind]. rewrite H2. cbn [deref obind]. rewrite H1. cbn [obind].
    rewrite H5. destruct (StrainAt b (cm_mod_creep n) (cm_mod_loadstrain n) (st_type s) r (cm_thermal_state n) v);
      cbn [obind omap]; split; reflexivity.
  - unfold cm_StrainThermal. rewrite U. reflexivity.
Qed.

End Query.

(** ** The polynomial region *)

Lemma tol_2 : powerRZ 10 (- (2)) = 1 / 100.
Proof. change (- (2))%Z with (-2)%Z. cbn [powerRZ]. change (Pos.to_nat 2) with 2%nat. cbn [pow]. field. Qed.

Lemma guess_R : flit (n := RNum) 1 (-1) = 1 / 10.
Proof. rewrite flit_R. cbn [powerRZ]. change (Pos.to_nat 1) with 1%nat. cbn [pow]. change (F RNum) with R. field. Qed.

Lemma poly_X_concave : forall (l : list R) slope lo hi y, l <> [] ->
  (forall x, derivable_pt_lim (peval l) x (slope x)) -> rises_concave slope lo hi ->
  lo <= 1 / 10 <= hi -> peval l lo <= y <= peval l hi -> peval l (1 / 10) - slope (1 / 10) * (1 / 10 - lo) <= y ->
  (1 - slope hi / slope lo) ^ 99 * (peval l hi - peval l lo) <= 1 / 100 ->
  exists x, poly_X (N := RNum) l y = Ok x /\ lo <= x <= hi /\ 0 <= y - peval l x <= 1 / 100 * (slope lo / slope hi).
Proof.
  intros l slope lo hi y NE D B G Y Fi En. rewrite <- tol_2 in *.
  destruct (X_concave (fun _ => l) (CAddr 0%Z) [] _ 0%Z y (1 / 10) 2%Z slope lo hi eq_refl eq_refl NE) as (x & p' & E & A1 & A2 & _);
    try assumption.
  { rewrite tol_2. lra. }
  exists x. split; [|split; assumption]. unfold poly_X. rewrite guess_R. rewrite E. reflexivity.
Qed.

Lemma poly_X_straight : forall (l : list R) c0 c1 y, l <> [] -> straight l c0 c1 -> c1 <> 0 ->
  poly_X (N := RNum) l y = Ok ((y - c0) / c1).
Proof.
  intros l c0 c1 y NE L C.
  destruct (X_straight (fun _ => l) (CAddr 0%Z) [] _ 0%Z c0 c1 y (1 / 10) 2%Z eq_refl eq_refl L NE C) as (p' & E).
  { rewrite tol_2. lra. }
  unfold poly_X. rewrite guess_R, E. reflexivity.
Qed.

(** Load undoes Strain in the polynomial region up to the tolerance of the search. *)
Theorem component_concave : forall (cs : list (CmCall RNum)) m m1 b s pu ps pe (slope : R -> R) (lo hi v : R),
  cm_run CompModel_new cs = Ok m -> cm_base m = Ok b -> cm_state m = Some s -> st_type s <> PTNull ->
  cm_PointsRegions m = Ok ([pu; ps; pe], m1) -> 0 <= p2y ps -> 0 < cc_modulus_tension b -> 0 < cc_scale_x b ->
  let l : list R := match st_type s with PTCreep => cc_creep b | _ => cc_loadstrain b end in
  l <> [] -> (forall x, derivable_pt_lim (peval l) x (slope x)) -> rises_concave slope lo hi ->
  lo <= 1 / 10 <= hi -> peval l (1 / 10) - slope (1 / 10) * (1 / 10 - lo) <= p2y ps ->
  (1 - slope hi / slope lo) ^ 99 * (peval l hi - peval l lo) <= 1 / 100 ->
  peval l lo <= p2y ps -> p2y pe <= peval l hi ->
  let tolerance := 1 / 100 * (slope lo / slope hi) in
  p2y ps + tolerance < v < p2y pe - tolerance ->
  exists e m2 w m3, cm_Strain m v = Ok (e, m2) /\ p2x ps < e < p2x pe /\ cm_Load m2 e = Ok (w, m3) /\
    Rabs (w - cc_scale_y b * v) <= Rabs (cc_scale_y b) * tolerance.
Proof.
  intros cs m m1 b s pu ps pe slope lo hi v Run B S T P Y0 Mt Sx l NE D C G Fi En Ylo Yhi tol (V1 & V2).
  destruct (query_form cs m m1 b s pu ps pe Run B S P Y0) as (t & limit & load & Q1 & Q2 & Q3 & Q4 & Q5 & mc & ml & _ & _ & QL & QS & _).
  change (curve_of b (st_type s)) with l in Q3.
  assert (T0 : 0 < tol).
  { destruct (C lo hi) as (P1 & P2); try lra. unfold tol. apply Rmult_lt_0_compat; [lra|]. apply Rdiv_lt_0_compat; lra. }
  destruct (poly_X_concave l slope lo hi v NE D C G) as (x & X & Xr & Er); [lra|lra|exact En|].
  set (th := StrainThermal b t (st_temperature s)) in *.
  unfold PointsRegions in Q3. fold th in Q3. unfold StrainPolynomial in Q3.
  assert (Yse : p2y ps = load /\ p2y pe = limit).
  { destruct (poly_X (N := RNum) l limit) as [z| |]; cbn [obind] in Q3; try discriminate Q3.
    destruct (poly_X (N := RNum) l load) as [z'| |]; cbn [obind] in Q3; try discriminate Q3. injection Q3 as _ <- <-. split; reflexivity. }
  destruct Yse as (Es & Ee).
  destruct (poly_X_concave l slope lo hi load NE D C G) as (xs & Xs & Xsr & Ers); [lra|lra|exact En|].
  destruct (poly_X_concave l slope lo hi limit NE D C G) as (xe & Xe & Xer & Ere); [lra|lra|exact En|].
  rewrite Xs, Xe in Q3. cbn [obind] in Q3. injection Q3 as _ Eps Epe.
  assert (Pxs : p2x ps = xs * cc_scale_x b + th) by (rewrite <- Eps; reflexivity).
  assert (Pxe : p2x pe = xe * cc_scale_x b + th) by (rewrite <- Epe; reflexivity).
  clear Eps Epe. fold tol in Er, Ers, Ere.
  assert (L1 : xs < x) by (apply (rising_inv (peval l) slope lo hi D C xs x Xsr Xr); lra).
  assert (L2 : x < xe) by (apply (rising_inv (peval l) slope lo hi D C x xe Xr Xer); lra).
  assert (E : StrainAt b mc ml (st_type s) (mkRegions pu ps pe) th v = Ok (ConvertToStrain b x th)).
  { unfold StrainAt. cbn [rg_unloaded rg_start rg_end].
    assert (A1 : fltb (n := RNum) v (p2y pu) = false) by (apply Rltb_false; rewrite Q4; change (F RNum) with R in *; lra).
    assert (A2 : andb (fleb (n := RNum) (p2y pu) v) (fleb (n := RNum) v (p2y ps)) = false).
    { apply andb_false_iff. right. apply Rleb_false. lra. }
    assert (A3 : andb (fltb (n := RNum) (p2y ps) v) (fltb (n := RNum) v (p2y pe)) = true).
    { apply andb_true_iff. split; apply Rltb_true; lra. }
    rewrite A1, A2, A3. unfold StrainPolynomial. unfold l in X.
    destruct (st_type s); [contradiction| |]; rewrite X; reflexivity. }
  set (e := ConvertToStrain b x th) in *.
  assert (Ex : e = x * cc_scale_x b + th) by reflexivity.
  assert (E1 : p2x ps < e). { rewrite Pxs, Ex. assert (xs * cc_scale_x b < x * cc_scale_x b) by (apply Rmult_lt_compat_r; lra). lra. }
  assert (E2 : e < p2x pe). { rewrite Pxe, Ex. assert (x * cc_scale_x b < xe * cc_scale_x b) by (apply Rmult_lt_compat_r; lra). lra. }
  exists e, m1. destruct (QL e) as (_ & Ql). eexists. exists m1. split.
  { destruct (QS v) as (Qs & _). rewrite Qs, E. reflexivity. }
  split; [split; assumption|]. split; [exact Ql|].
  assert (Pu : p2x pu <= p2x ps).
  { assert (0 <= p2y ps / cc_modulus_tension b). { apply Rmult_le_pos; [exact Y0|]. left. apply Rinv_0_lt_compat. exact Mt. }
    rewrite Q5. replace ((0 - p2y ps) / cc_modulus_tension b) with (- (p2y ps / cc_modulus_tension b)) by (rfield; lra). lra. }
  assert (W : LoadAt b mc ml (st_type s) (mkRegions pu ps pe) th e = LoadPolynomial b l th e).
  { unfold LoadAt. cbn [rg_unloaded rg_start rg_end].
    assert (A1 : fltb (n := RNum) e (p2x pu) = false) by (apply Rltb_false; lra).
    assert (A2 : andb (fleb (n := RNum) (p2x pu) e) (fleb (n := RNum) e (p2x ps)) = false).
    { apply andb_false_iff. right. apply Rleb_false. lra. }
    assert (A3 : andb (fltb (n := RNum) (p2x ps) e) (fltb (n := RNum) e (p2x pe)) = true).
    { apply andb_true_iff. split; apply Rltb_true; lra. }
    rewrite A1, A2, A3. unfold l. destruct (st_type s); [contradiction|reflexivity|reflexivity]. }
  rewrite W. unfold LoadPolynomial. rewrite Y_list_R.
  assert (Z : ConvertToStrainPolynomial b e th = x).
  { unfold e, ConvertToStrainPolynomial, ConvertToStrain. rn. rfield. lra. }
  rewrite Z. rn. replace (peval l x * cc_scale_y b - cc_scale_y b * v) with (cc_scale_y b * - (v - peval l x)) by rring.
  rewrite Rabs_mult, Rabs_Ropp, (Rabs_pos_eq (v - peval l x)) by lra. apply Rmult_le_compat_l; [apply Rabs_pos|lra].
Qed.

(** ** Straight curves *)

(** [f] rises on [S], at most with the slope [K]. *)
Definition grows (f : R -> R) (K : R) (D : R -> Prop) : Prop :=
  forall e1 e2, D e1 -> D e2 -> e1 < e2 -> 0 < f e2 - f e1 <= K * (e2 - e1).

Lemma grows_glue : forall f K p, grows f K (fun e => e <= p) -> grows f K (fun e => p <= e) -> grows f K (fun _ => True).
Proof.
  intros f K p A B e1 e2 _ _ L. destruct (Rle_lt_dec e2 p) as [H|H]; [apply A; lra|].
  destruct (Rle_lt_dec p e1) as [H'|H']; [apply B; lra|].
  pose proof (A e1 p ltac:(lra) ltac:(lra) H'). pose proof (B p e2 ltac:(lra) ltac:(lra) H). lra.
Qed.

Lemma grows_glue_low : forall f K p q, p <= q -> grows f K (fun e => e <= p) -> grows f K (fun e => p <= e <= q) ->
  grows f K (fun e => e <= q).
Proof.
  intros f K p q Q A B e1 e2 D1 D2 L. destruct (Rle_lt_dec e2 p) as [H|H]; [apply A; lra|].
  destruct (Rle_lt_dec p e1) as [H'|H']; [apply B; lra|].
  pose proof (A e1 p ltac:(lra) ltac:(lra) H'). pose proof (B p e2 ltac:(lra) ltac:(lra) H). lra.
Qed.

Lemma grows_line : forall (f : R -> R) K k c (D : R -> Prop), 0 < k <= K -> (forall e, D e -> f e = c + e * k) -> grows f K D.
Proof.
  intros f K k c D (H1 & H2) L e1 e2 D1 D2 Lt. rewrite (L _ D1), (L _ D2).
  replace (c + e2 * k - (c + e1 * k)) with (k * (e2 - e1)) by ring. split.
  - apply Rmult_lt_0_compat; lra.
  - apply Rmult_le_compat_r; lra.
Qed.

Theorem component_line : forall (cs : list (CmCall RNum)) m m1 b s pu ps pe (c0 c1 : R),
  cm_run CompModel_new cs = Ok m -> cm_base m = Ok b -> cm_state m = Some s -> st_type s <> PTNull ->
  cc_creep b <> [] -> cc_loadstrain b <> [] ->
  0 < cc_modulus_compression b -> 0 < cc_modulus_tension b -> 0 < cc_scale_x b -> cc_scale_y b = 1 ->
  cm_PointsRegions m = Ok ([pu; ps; pe], m1) -> 0 <= p2y ps < p2y pe ->
  straight (match st_type s with PTCreep => cc_creep b | _ => cc_loadstrain b end) c0 c1 -> 0 < c1 ->
  exists f : R -> R,
    (forall e, exists m2 m3, cm_Load m e = Ok (f e, m2) /\ cm_Strain m2 (f e) = Ok (e, m3)) /\
    (forall v, exists e m2, cm_Strain m v = Ok (e, m2) /\ f e = v) /\
    (exists K, forall e1 e2, e1 < e2 -> 0 < f e2 - f e1 <= K * (e2 - e1)).
Proof.
  intros cs m m1 b s pu ps pe c0 c1 Run B S T Lc Ll Mc Mt Sx Sy P (Y0 & Y1) Li C1.
  destruct (query_form cs m m1 b s pu ps pe Run B S P Y0)
    as (t & limit & load & Q1 & Q2 & Q3 & Q4 & Q5 & mc & ml & Hc & Hl & QL & QS & _).
  specialize (Hc Lc). specialize (Hl Ll).
  set (l := curve_of b (st_type s)) in *. set (th := StrainThermal b t (st_temperature s)) in *.
  assert (NE : l <> []) by (unfold l, curve_of; destruct (st_type s); assumption).
  assert (Li' : straight l c0 c1) by exact Li. clear Li.
  assert (Sp : forall y, StrainPolynomial b l th y = Ok ((y - c0) / c1 * cc_scale_x b + th)).
  { intros y. unfold StrainPolynomial. rewrite (poly_X_straight l c0 c1 y NE Li') by lra. reflexivity. }
  unfold PointsRegions in Q3. fold th in Q3. rewrite !Sp in Q3. cbn [obind] in Q3. injection Q3 as _ Eps Epe.
  assert (Xs : p2x ps = (p2y ps - c0) / c1 * cc_scale_x b + th) by (rewrite <- Eps; reflexivity).
  assert (Xe : p2x pe = (p2y pe - c0) / c1 * cc_scale_x b + th) by (rewrite <- Epe; reflexivity).
  clear Eps Epe.
  set (k := c1 / cc_scale_x b). assert (K0 : 0 < k) by (apply Rdiv_lt_0_compat; assumption).
  assert (Ye : p2y pe = p2y ps + (p2x pe - p2x ps) * k). { rewrite Xs, Xe. unfold k. rfield. split; lra. }
  assert (Xse : p2x ps < p2x pe).
  { apply (Rmult_lt_reg_r k); [exact K0|]. rewrite Rmult_minus_distr_r in Ye. lra. }
  assert (Pu : p2x pu <= p2x ps).
  { assert (0 <= p2y ps / cc_modulus_tension b). { apply Rmult_le_pos; [exact Y0|]. left. apply Rinv_0_lt_compat. exact Mt. }
    rewrite Q5. replace ((0 - p2y ps) / cc_modulus_tension b) with (- (p2y ps / cc_modulus_tension b)) by (rfield; lra). lra. }
  assert (Ys : p2y ps = (p2x ps - p2x pu) * cc_modulus_tension b). { rewrite Q5. rfield. lra. }
  set (r := mkRegions pu ps pe) in *.
  set (f := fun e : R => LoadAt b mc ml (st_type s) r th e : R).
  set (ma := match st_type s with PTCreep => mc | _ => ml end).
  assert (Ma : 100000 <= ma) by (unfold ma; destruct (st_type s); assumption).
  pose proof (fun e => LoadAt_straight b mc ml (st_type s) r th e T Mt Q4 Q5 Y0) as LS. cbn zeta in LS.
  change (rg_unloaded r) with pu in LS. change (rg_start r) with ps in LS. change (rg_end r) with pe in LS.
  assert (A1 : forall e, e <= p2x pu -> f e = - p2x pu * cc_modulus_compression b + e * cc_modulus_compression b).
  { intros e He. destruct (LS e) as (H & _). unfold f. rewrite (H He). rring. }
  assert (A2 : forall e, p2x pu <= e <= p2x ps -> f e = - p2x pu * cc_modulus_tension b + e * cc_modulus_tension b).
  { intros e He. destruct (LS e) as (_ & H & _). unfold f. rewrite (H He). rring. }
  assert (A4 : forall e, p2x pe <= e -> f e = (p2y pe - p2x pe * ma) + e * ma).
  { intros e He. destruct (LS e) as (_ & _ & H). unfold f. rewrite (H Xse He). unfold ma. rring. }
  assert (A3 : forall e, p2x ps <= e <= p2x pe -> f e = (p2y ps - p2x ps * k) + e * k).
  { intros e (E1 & E2). destruct (Rle_lt_or_eq_dec _ _ E1) as [L1|L1]; [|rewrite <- L1, A2 by lra; lra].
    destruct (Rle_lt_or_eq_dec _ _ E2) as [L2|L2]; [|rewrite L2, A4 by lra; lra].
    unfold f, LoadAt. change (rg_unloaded r) with pu. change (rg_start r) with ps. change (rg_end r) with pe.
    assert (B1 : fltb (n := RNum) e (p2x pu) = false) by (apply Rltb_false; lra).
    assert (B2 : andb (fleb (n := RNum) (p2x pu) e) (fleb (n := RNum) e (p2x ps)) = false).
    { apply andb_false_iff. right. apply Rleb_false. lra. }
    assert (B3 : andb (fltb (n := RNum) (p2x ps) e) (fltb (n := RNum) e (p2x pe)) = true).
    { apply andb_true_iff. split; apply Rltb_true; lra. }
    rewrite B1, B2, B3. transitivity (LoadPolynomial b l th e : R).
    { unfold l, curve_of. destruct (st_type s); [contradiction|reflexivity|reflexivity]. }
    unfold LoadPolynomial. rewrite Y_list_R, (Li' _), Sy. unfold ConvertToStrainPolynomial. rn. rewrite Xs. unfold k. rfield.
    split; lra. }
  set (K := cc_modulus_compression b + cc_modulus_tension b + k + ma).
  assert (Gr : grows f K (fun _ => True)).
  { apply (grows_glue f K (p2x pe)).
    - apply (grows_glue_low f K (p2x ps)); [lra| |].
      + apply (grows_glue_low f K (p2x pu)); [lra| |].
        * eapply grows_line; [|exact A1]. unfold K. lra.
        * eapply grows_line; [|exact A2]. unfold K. lra.
      + eapply grows_line; [|exact A3]. unfold K. lra.
    - eapply grows_line; [|exact A4]. unfold K. lra. }
  assert (Inv : forall e, StrainAt b mc ml (st_type s) r th (f e) = Ok e).
  { intros e. destruct (Rle_lt_dec e (p2x ps)) as [L1|L1].
    { apply LoadAt_StrainAt; try assumption; try lra; try (split; assumption). left. exact L1. }
    destruct (Rle_lt_dec (p2x pe) e) as [L2|L2].
    { apply LoadAt_StrainAt; try assumption; try lra; try (split; assumption). right. split; assumption. }
    assert (Fs : f (p2x ps) = p2y ps) by (rewrite A2 by lra; lra). assert (Fe : f (p2x pe) = p2y pe) by (rewrite A4 by lra; lra).
    pose proof (Gr (p2x ps) e ltac:(exact Logic.I) ltac:(exact Logic.I) L1) as G1.
    pose proof (Gr e (p2x pe) ltac:(exact Logic.I) ltac:(exact Logic.I) L2) as G2.
    assert (V : f e = (p2y ps - p2x ps * k) + e * k) by (apply A3; lra).
    set (v := f e) in *. unfold StrainAt. change (rg_unloaded r) with pu. change (rg_start r) with ps. change (rg_end r) with pe.
    assert (B1 : fltb (n := RNum) v (p2y pu) = false) by (apply Rltb_false; rewrite Q4; change (F RNum) with R in *; lra).
    assert (B2 : andb (fleb (n := RNum) (p2y pu) v) (fleb (n := RNum) v (p2y ps)) = false).
    { apply andb_false_iff. right. apply Rleb_false. lra. }
    assert (B3 : andb (fltb (n := RNum) (p2y ps) v) (fltb (n := RNum) v (p2y pe)) = true).
    { apply andb_true_iff. split; apply Rltb_true; lra. }
    rewrite B1, B2, B3. transitivity (StrainPolynomial b l th v).
    { unfold l, curve_of. destruct (st_type s); [contradiction|reflexivity|reflexivity]. }
    rewrite Sp. f_equal. rewrite V. rewrite Xs. unfold k. rfield. split; lra. }
  exists f. split; [|split].
  - intros e. exists m1, m1. destruct (QL e) as (Ql & _). destruct (QS (f e)) as (_ & Qs). split; [exact Ql|].
    rewrite Qs, (Inv e). reflexivity.
  - assert (On : forall v, exists e, f e = v).
    { intros v. destruct (Rle_lt_dec v 0) as [V1|V1].
      { exists (p2x pu + v / cc_modulus_compression b). rewrite A1; [rfield; lra|].
        assert (v / cc_modulus_compression b <= 0); [|lra].
        replace (v / cc_modulus_compression b) with (- (- v / cc_modulus_compression b)) by (rfield; lra).
        assert (0 <= - v / cc_modulus_compression b); [|lra]. apply Rmult_le_pos; [lra|]. left. apply Rinv_0_lt_compat. lra. }
      destruct (Rle_lt_dec v (p2y ps)) as [V2|V2].
      { exists (p2x pu + v / cc_modulus_tension b). rewrite A2; [rfield; lra|]. split.
        - assert (0 <= v / cc_modulus_tension b); [|lra]. apply Rmult_le_pos; [lra|]. left. apply Rinv_0_lt_compat. lra.
        - apply (Rmult_le_reg_r (cc_modulus_tension b)); [lra|]. unfold Rdiv.
          rewrite Rmult_plus_distr_r, Rmult_assoc, Rinv_l by lra. lra. }
      destruct (Rle_lt_dec v (p2y pe)) as [V3|V3].
      { exists (p2x ps + (v - p2y ps) / k). rewrite A3; [rfield; lra|]. split.
        - assert (0 <= (v - p2y ps) / k); [|lra]. apply Rmult_le_pos; [lra|]. left. apply Rinv_0_lt_compat. lra.
        - apply (Rmult_le_reg_r k); [lra|]. unfold Rdiv. rewrite Rmult_plus_distr_r, Rmult_assoc, Rinv_l by lra. lra. }
      exists (p2x pe + (v - p2y pe) / ma). rewrite A4; [rfield; lra|].
      assert (0 <= (v - p2y pe) / ma); [|lra]. apply Rmult_le_pos; [lra|]. left. apply Rinv_0_lt_compat. lra. }
    intros v. destruct (On v) as (e & He). exists e, m1. split; [|exact He]. destruct (QS v) as (Qs & _). rewrite Qs.
    rewrite <- He, (Inv e). reflexivity.
  - exists K. intros e1 e2 L. apply Gr; auto.
Qed.
