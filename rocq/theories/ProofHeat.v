(** Convection, radiation and solar heat in the two unit systems; monotonicity of convection. *)
From Coq Require Import ZArith Bool List Reals Lra Lia Psatz.
From Verif Require Import Num NumFacts ModelBase ModelCable ModelThermal SpecThermal SpecHeat
  ProofReal ProofVector ProofThermal ProofThermalTemp ProofThermalReal.
Import ListNotations.
Open Scope R_scope.

(** ** Multiplicative closeness *)
Definition near (k x y : R) : Prop := y <= k * x /\ x <= k * y.

Lemma near_agree : forall k x y, 1 <= k -> 0 <= y -> near k x y -> agree (k - 1) x y.
Proof.
  intros k x y K Y (A & B). unfold agree. rewrite (Rabs_right y) by lra. apply Rabs_le. split; [|lra].
  apply Rmult_le_reg_l with k; [lra|]. assert (0 <= (k - 1) * (k - 1) * y) by (apply Rmult_le_pos; [apply Rle_0_sqr|exact Y]). lra.
Qed.

Lemma near_mono : forall k l x y, k <= l -> 0 <= x -> 0 <= y -> near k x y -> near l x y.
Proof. intros k l x y K X Y (A & B). split; nra. Qed.

Lemma near_refl : forall k x, 1 <= k -> 0 <= x -> near k x x.
Proof. intros k x K X. split; nra. Qed.

Lemma near_mul : forall k l x y x' y', 0 <= x -> 0 <= y -> 0 <= x' -> 0 <= y' -> 1 <= k -> 1 <= l ->
  near k x y -> near l x' y' -> near (k * l) (x * x') (y * y').
Proof.
  intros k l x y x' y' X Y X' Y' K L (A & B) (A' & B'). split.
  - replace (k * l * (x * x')) with ((k * x) * (l * x')) by ring. apply Rmult_le_compat; assumption.
  - replace (k * l * (y * y')) with ((k * y) * (l * y')) by ring. apply Rmult_le_compat; assumption.
Qed.

Lemma near_scale : forall k c x y, 0 <= c -> near k x y -> near k (c * x) (c * y).
Proof. intros k c x y C (A & B). split; nra. Qed.

Lemma near_inv : forall k x y, 0 < x -> 0 < y -> near k x y -> near k (/ x) (/ y).
Proof.
  intros k x y X Y (A & B). split.
  - apply Rmult_le_reg_l with (x * y); [nra|]. replace (x * y * / y) with x by (field; lra). replace (x * y * (k * / x)) with (k * y) by (field; lra). exact B.
  - apply Rmult_le_reg_l with (x * y); [nra|]. replace (x * y * / x) with y by (field; lra). replace (x * y * (k * / y)) with (k * x) by (field; lra). exact A.
Qed.

Lemma near_plus : forall k x y x' y', near k x y -> near k x' y' -> near k (x + x') (y + y').
Proof. intros k x y x' y' (A & B) (A' & B'). split; lra. Qed.

Lemma near_max : forall k x y x' y', 1 <= k -> near k x y -> near k x' y' -> near k (Rmax x x') (Rmax y y').
Proof. intros k x y x' y' K (A & B) (A' & B'). unfold near, Rmax. destruct (Rle_dec x x'), (Rle_dec y y'); split; nra. Qed.

Lemma frac01 : forall x a, 0 < a < 1 -> Rpow_c x a = if Rlt_dec 0 x then Rpower x a else 0.
Proof. intros x a A. apply (Rpow_frac x a 0). lra. Qed.

Lemma frac_mul : forall x y a, 0 < a < 1 -> 0 <= x -> 0 <= y -> Rpow_c (x * y) a = Rpow_c x a * Rpow_c y a.
Proof.
  intros x y a A X Y. rewrite !frac01 by exact A.
  destruct (Rlt_dec 0 x) as [H|H], (Rlt_dec 0 y) as [H'|H'], (Rlt_dec 0 (x * y)) as [H2|H2]; try nra.
  rewrite Rpower_mult_distr by assumption. reflexivity.
Qed.

Lemma frac_le : forall x y a, 0 < a < 1 -> 0 <= x <= y -> Rpow_c x a <= Rpow_c y a.
Proof.
  intros x y a A H. rewrite !frac01 by exact A. destruct (Rlt_dec 0 x) as [X|X], (Rlt_dec 0 y) as [Y|Y]; try lra.
  - destruct (Rle_lt_or_eq_dec x y ltac:(lra)) as [L|<-]; [|lra]. left. apply Rlt_Rpower_l; lra.
  - left. apply exp_pos.
Qed.

Lemma frac_lt : forall x y a, 0 < a < 1 -> 0 <= x < y -> Rpow_c x a < Rpow_c y a.
Proof.
  intros x y a A H. rewrite !frac01 by exact A. destruct (Rlt_dec 0 x) as [X|X], (Rlt_dec 0 y) as [Y|Y]; try lra.
  - apply Rlt_Rpower_l; lra.
  - apply exp_pos.
Qed.

Lemma frac_ge1 : forall k a, 0 < a < 1 -> 1 <= k -> Rpow_c k a <= k.
Proof.
  intros k a A K. rewrite frac01 by exact A. destruct (Rlt_dec 0 k); [|lra].
  rewrite <- (Rpower_1 k) at 2 by lra. destruct (Rle_lt_or_eq_dec _ _ K) as [L|<-].
  - left. apply Rpower_lt; lra.
  - unfold Rpower. rewrite ln_1, !Rmult_0_r. lra.
Qed.

Lemma frac_pos : forall x a, 0 < a < 1 -> 0 <= Rpow_c x a.
Proof. intros x a A. apply (Rpow_frac_nonneg x a 0). lra. Qed.

Lemma near_pow : forall k x y a, 0 < a < 1 -> 1 <= k -> 0 <= x -> 0 <= y -> near k x y -> near k (Rpow_c x a) (Rpow_c y a).
Proof.
  intros k x y a A K X Y (B & C). assert (G := frac_ge1 k a A K).
  assert (forall u v, 0 <= u -> 0 <= v -> u <= k * v -> Rpow_c u a <= k * Rpow_c v a) as M.
  { intros u v U V H. apply Rle_trans with (Rpow_c (k * v) a); [apply frac_le; lra|]. rewrite frac_mul by lra.
    apply Rmult_le_compat_r; [apply frac_pos, A|exact G]. }
  split; apply M; assumption.
Qed.

(** ** The solver's formulas with exact coefficients *)
Lemma conductivity_R : forall u (f : R), u <> USNull -> conductivity_air (N := RNum) u f =
  match u with Imperial => 7388 / 1000000 + 2279 / 100000000 * f - 1343 / 1000000000000 * (f * f)
  | _ => 2424 / 100000 + 7477 / 100000000 * f - 4407 / 1000000000000 * (f * f) end.
Proof.
  intros u f U. unfold conductivity_air. rn. rewrite !flit_R, ?Rpow_c_Z, ?Rpow_2.
  destruct u; [congruence|..]; simpl; field.
Qed.

Lemma viscosity_R : forall u (f : R), u <> USNull -> viscosity_air (N := RNum) u f =
  (match u with Imperial => 353 / 100000 / 3600 | _ => 1458 / 1000000000 end) * Rpow_c (f + 273) (3 / 2) * / (f + 3834 / 10).
Proof.
  intros u f U. unfold viscosity_air. rn. rewrite !flit_R, ?Rpow_c_Z.
  replace (IZR 15 * powerRZ 10 (-1)) with (3 / 2) by (simpl; lra).
  replace (IZR 3834 * powerRZ 10 (-1)) with (3834 / 10) by (simpl; lra).
  generalize (f + 3834 / 10). intros g. set (p := Rpow_c (f + 273) (3 / 2)).
  destruct u; [congruence|..]; unfold Rdiv; generalize (/ g); intros q; simpl; field.
Qed.

Definition wind_factor (a : R) : R := 1194 / 1000 - cos a + 194 / 1000 * cos (2 * a) + 368 / 1000 * sin (2 * a).

Lemma forced_R : forall (d : R) (w : ThermalRatingWeather RNum) (k p m t : R),
  HeatConvectionForced (N := RNum) d w k p m t =
  let re := d * p * tw_speed_wind w / m in let g := wind_factor (tw_angle_wind w * (K / 180)) in
  Rmax (g * (101 / 100 + 135 / 100 * Rpow_c re (52 / 100)) * k * (t - tw_temperature_air w))
       (g * (754 / 1000) * Rpow_c re (6 / 10) * k * (t - tw_temperature_air w)).
Proof.
  intros d w k p m t. unfold HeatConvectionForced. rewrite deg2rad_R. rn. rewrite !flit_R.
  replace (IZR 1194 * powerRZ 10 (-3)) with (1194 / 1000) by (simpl; lra).
  replace (IZR 194 * powerRZ 10 (-3)) with (194 / 1000) by (simpl; lra).
  replace (IZR 368 * powerRZ 10 (-3)) with (368 / 1000) by (simpl; lra).
  replace (IZR 754 * powerRZ 10 (-3)) with (754 / 1000) by (simpl; lra).
  replace (IZR 101 * powerRZ 10 (-2)) with (101 / 100) by (simpl; lra).
  replace (IZR 135 * powerRZ 10 (-2)) with (135 / 100) by (simpl; lra).
  replace (IZR 52 * powerRZ 10 (-2)) with (52 / 100) by (simpl; lra).
  replace (IZR 6 * powerRZ 10 (-1)) with (6 / 10) by (simpl; lra).
  cbv zeta. unfold wind_factor, Rmax.
  match goal with |- (if Rleb ?a ?b then _ else _) = _ => destruct (Rleb a b) eqn:E end; rbool; destruct Rle_dec; try reflexivity; try lra.
  all: exfalso; lra.
Qed.

Lemma convection_R : forall u (d : R) (w : ThermalRatingWeather RNum) (t : R), u <> USNull ->
  convection (N := RNum) u d w t =
  let f := (t + tw_temperature_air w) / 2 in let p : R := density_air (N := RNum) u (tw_elevation w) f in
  - Rmax (HeatConvectionNatural (N := RNum) u d w p t)
      (HeatConvectionForced (N := RNum) d w (conductivity_air (N := RNum) u f) p (viscosity_air (N := RNum) u f) t).
Proof.
  intros u d w t U. unfold convection. rn. cbv zeta. unfold Rmax.
  match goal with |- (if Rltb ?a ?b then _ else _) = _ => destruct (Rltb a b) eqn:E end; rbool; destruct Rle_dec; try lra.
Qed.

(** ** Wind direction *)
Lemma angle_range : forall x, 0 <= x <= 90 -> 0 <= x * (K / 180) < PI / 2.
Proof. intros x H. assert (P := PI_K). assert (Q := K_pos). split; [|unfold K in *; nra]. apply Rmult_le_pos; [lra|unfold K; lra]. Qed.

Lemma factor_pos : forall a, 0 <= a < PI / 2 -> 0 < wind_factor a.
Proof.
  intros a H. unfold wind_factor. rewrite cos_2a, sin_2a. assert (P := PI_RGT_0).
  assert (0 <= sin a) by (apply sin_ge_0; lra). assert (0 < cos a) by (apply cos_gt_0; lra).
  assert (E := sin2_cos2 a). unfold Rsqr in E. set (s := sin a) in *. set (c := cos a) in *. nra.
Qed.

Lemma slope_pos : forall s c : R, 0 <= s -> 0 <= c -> s * s + c * c = 1 -> 0 < s - 776 / 1000 * (s * c) + 736 / 1000 * (c * c - s * s).
Proof.
  intros s c S0 C0 E. assert (c <= 1) by nra. assert (s <= 1) by nra.
  replace (c * c) with (1 - s * s) by lra.
  destruct (Rle_lt_dec s (1 / 2)) as [L|L].
  - assert (s * c <= s) by nra. nra.
  - assert (Q : s * c <= 182 / 1000 * (s * s) + 1374 / 1000 * (c * c)).
    { assert (0 <= (364 / 1000 * s - c) * (364 / 1000 * s - c)) by apply Rle_0_sqr. assert (0 <= c * c) by apply Rle_0_sqr. lra. }
    replace (c * c) with (1 - s * s) in Q by lra. assert (0 <= (s - 1 / 2) * (1 - s)) by (apply Rmult_le_pos; lra). lra.
Qed.

Lemma factor_grows : forall a b, 0 <= a -> a < b -> b < PI / 2 -> wind_factor a < wind_factor b.
Proof.
  intros a b A L B.
  destruct (MVT_cor2 wind_factor (fun x => sin x - 388 / 1000 * sin (2 * x) + 736 / 1000 * cos (2 * x)) a b L) as (x & E & X).
  - intros x _. unfold wind_factor.
    replace (sin x - 388 / 1000 * sin (2 * x) + 736 / 1000 * cos (2 * x)) with
      (0 - - sin x + 194 / 1000 * (- sin (2 * x) * (2 * 1)) + 368 / 1000 * (cos (2 * x) * (2 * 1))) by field.
    assert (D2 : derivable_pt_lim (fun y => 2 * y) x (2 * 1)) by (apply (derivable_pt_lim_scal id 2 x 1), derivable_pt_lim_id).
    apply (derivable_pt_lim_plus (fun y => 1194 / 1000 - cos y + 194 / 1000 * cos (2 * y)) (fun y => 368 / 1000 * sin (2 * y))).
    + apply (derivable_pt_lim_plus (fun y => 1194 / 1000 - cos y) (fun y => 194 / 1000 * cos (2 * y))).
      * apply (derivable_pt_lim_minus (fun _ => 1194 / 1000) cos); [apply derivable_pt_lim_const|apply derivable_pt_lim_cos].
      * apply (derivable_pt_lim_scal (fun y => cos (2 * y)) (194 / 1000)).
        apply (derivable_pt_lim_comp (fun y => 2 * y) cos); [exact D2|apply derivable_pt_lim_cos].
    + apply (derivable_pt_lim_scal (fun y => sin (2 * y)) (368 / 1000)).
      apply (derivable_pt_lim_comp (fun y => 2 * y) sin); [exact D2|apply derivable_pt_lim_sin].
  - assert (P := PI_RGT_0). rewrite sin_2a, cos_2a in E.
    assert (S0 : 0 <= sin x) by (apply sin_ge_0; lra). assert (C0 : 0 <= cos x) by (apply cos_ge_0; lra).
    assert (G := slope_pos (sin x) (cos x) S0 C0). assert (T := sin2_cos2 x). unfold Rsqr in T. specialize (G T).
    set (s := sin x) in *. set (c := cos x) in *. nra.
Qed.
