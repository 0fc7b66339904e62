(** Radiation against a grey body; convection against temperature and wind. *)
From Coq Require Import ZArith Bool List Reals Lra Lia Psatz.
From Verif Require Import Num NumFacts ModelBase ModelCable ModelThermal SpecThermal SpecHeat
  ProofReal ProofVector ProofThermal ProofThermalTemp ProofThermalReal ProofHeat ProofHeatUnits.
Import ListNotations.
Open Scope R_scope.

(** ** Grey body *)
Lemma pi_stefan : 17813 / 1000 < PI * stefan * 100000000 < 17815 / 1000.
Proof. assert (P := PI_K). unfold K in P. unfold stefan. lra. Qed.

(** Fourth powers of temperatures counted from -273 and from -273.15. *)
Lemma fourths : forall x y : R, 173 <= y -> y <= x ->
  x ^ 4 - y ^ 4 <= (x + 15 / 100) ^ 4 - (y + 15 / 100) ^ 4 <= 10027 / 10000 * (x ^ 4 - y ^ 4).
Proof.
  intros x y Y X.
  set (s := (x + y) * (x * x + y * y)). set (s' := (x + y + 30 / 100) * ((x + 15 / 100) * (x + 15 / 100) + (y + 15 / 100) * (y + 15 / 100))).
  replace (x ^ 4 - y ^ 4) with ((x - y) * s) by (unfold s; ring).
  replace ((x + 15 / 100) ^ 4 - (y + 15 / 100) ^ 4) with ((x - y) * s') by (unfold s'; field).
  assert (A : forall z, 173 <= z -> z * z <= (z + 15 / 100) * (z + 15 / 100) <= (1 + 15 / 17300) * (1 + 15 / 17300) * (z * z)) by (intros z Z; split; nra).
  assert (Ax := A x ltac:(lra)). assert (Ay := A y Y). clear A.
  assert (P : 0 <= x * x + y * y) by nra.
  assert (s <= s' <= 10027 / 10000 * s).
  { unfold s, s'. split.
    - apply Rmult_le_compat; lra.
    - apply Rle_trans with (((1 + 15 / 17300) * (x + y)) * ((1 + 15 / 17300) * (1 + 15 / 17300) * (x * x + y * y))).
      + apply Rmult_le_compat; lra.
      + replace (_ * _) with ((1 + 15 / 17300) * (1 + 15 / 17300) * (1 + 15 / 17300) * ((x + y) * (x * x + y * y))) by ring.
        apply Rmult_le_compat_r; [apply Rmult_le_pos; lra|lra]. }
  split.
  - apply Rmult_le_compat_l; lra.
  - replace (10027 / 10000 * ((x - y) * s)) with ((x - y) * (10027 / 10000 * s)) by ring. apply Rmult_le_compat_l; lra.
Qed.

(** Length of a unit of length in metres. *)
Definition metres (u : UnitSystem) : R := match u with Imperial => foot | _ => 1 end.

Lemma radiation_grey : forall u (b : Cable RNum) (w : ThermalRatingWeather RNum) (t : R), u <> USNull -> 0 <= cb_diameter b -> 0 <= cb_emissivity b ->
  -100 <= tw_temperature_air w <= t ->
  agree (5 / 1000) (- radiation (N := RNum) u b w t)
    (metres u * grey_body (metres u * cb_diameter b) (cb_emissivity b) t (tw_temperature_air w)).
Proof.
  intros u b w t U D E T. rewrite radiation_R by exact U. unfold grey_body, kelvin.
  destruct (fourths (t + 273) (tw_temperature_air w + 273) ltac:(lra) ltac:(lra)) as (A & B).
  replace (t + 273 + 15 / 100) with (t + 27315 / 100) in A, B by lra.
  replace (tw_temperature_air w + 273 + 15 / 100) with (tw_temperature_air w + 27315 / 100) in A, B by lra.
  assert (Z0 : 0 <= (t + 273) ^ 4 - (tw_temperature_air w + 273) ^ 4).
  { destruct (Rle_lt_or_eq_dec _ _ (proj2 T)) as [L|L]; [assert (Q := pow_lt4 (tw_temperature_air w + 273) (t + 273) ltac:(lra)); lra|rewrite L; lra]. }
  set (z' := (t + 27315 / 100) ^ 4 - (tw_temperature_air w + 27315 / 100) ^ 4) in *.
  replace (- - _) with (krad u * cb_diameter b * cb_emissivity b * (((t + 273) ^ 4 - (tw_temperature_air w + 273) ^ 4) / 100000000)) by field.
  set (z := (t + 273) ^ 4 - (tw_temperature_air w + 273) ^ 4) in *.
  set (d := cb_diameter b) in *. set (e := cb_emissivity b) in *. change (F RNum) with R in (type of d), (type of e). clearbody z z' d e.
  assert (P := pi_stefan). set (q := PI * stefan * 100000000) in *.
  replace (metres u * (PI * (metres u * d) * e * stefan * z')) with (metres u * metres u * q * (d * e * (z' / 100000000))) by (unfold q; field).
  replace (krad u * d * e * (z / 100000000)) with (krad u * (d * e * (z / 100000000))) by ring.
  assert (DE : 0 <= d * e) by (apply Rmult_le_pos; assumption).
  set (y := d * e * (z / 100000000)). set (y' := d * e * (z' / 100000000)).
  assert (Y0 : 0 <= y) by (apply Rmult_le_pos; lra).
  assert (Y : y <= y' <= 10027 / 10000 * y).
  { unfold y, y'. split; [apply Rmult_le_compat_l; lra|]. replace (10027 / 10000 * (d * e * (z / 100000000))) with (d * e * (10027 / 10000 * z / 100000000)) by field. apply Rmult_le_compat_l; lra. }
  clearbody q y y'. unfold agree.
  assert (G : forall m k : R, 0 < m -> m * (17815 / 1000) * (10027 / 10000) * (995 / 1000) <= k -> k <= m * (17813 / 1000) * (1005 / 1000) ->
    Rabs (k * y - m * q * y') <= 5 / 1000 * Rabs (m * q * y')).
  { intros m k M K1 K2. assert (MQ : m * (17813 / 1000) <= m * q <= m * (17815 / 1000)) by (split; apply Rmult_le_compat_l; lra).
    assert (0 <= m * q) by (apply Rmult_le_pos; lra). rewrite (Rabs_right (m * q * y')) by (apply Rle_ge, Rmult_le_pos; lra).
    assert (m * q * y' <= m * (17815 / 1000) * (10027 / 10000 * y)) by (apply Rmult_le_compat; lra).
    assert (m * (17813 / 1000) * y <= m * q * y') by (apply Rmult_le_compat; try lra; apply Rmult_le_pos; lra).
    assert (m * (17815 / 1000) * (10027 / 10000) * (995 / 1000) * y <= k * y) by (apply Rmult_le_compat_r; lra).
    assert (k * y <= m * (17813 / 1000) * (1005 / 1000) * y) by (apply Rmult_le_compat_r; lra).
    apply Rabs_le. split; lra. }
  destruct u; [congruence|..]; cbn [metres krad]; apply G; unfold foot; lra.
Qed.

(** ** A hotter cable *)
Definition G0 : R := 100000 / 367.

(** Conductivity times the ratio that makes up the Reynolds number. *)
Lemma kr_grows : forall al be ka H g g' : R, 0 <= ka -> 0 <= al -> 0 <= H -> 170 <= g -> g < g' -> g' <= 850 ->
  H * al < (be - ka * (1700 + H)) * (170 * 170) ->
  (al + be * g - ka * (g * g)) * (g + H) / g < (al + be * g' - ka * (g' * g')) * (g' + H) / g'.
Proof.
  intros al be ka H g g' KA AL H0 L1 L2 L3 C.
  replace ((al + be * g - ka * (g * g)) * (g + H) / g) with (al + be * g - ka * (g * g) + H * (be - ka * g) + H * al / g) by (field; lra).
  replace ((al + be * g' - ka * (g' * g')) * (g' + H) / g') with (al + be * g' - ka * (g' * g') + H * (be - ka * g') + H * al / g') by (field; lra).
  assert (E : H * al / g - H * al / g' = (g' - g) * (H * al / (g * g'))) by (field; lra).
  assert (P : 170 * 170 <= g * g') by (apply Rmult_le_compat; lra).
  set (c := be - ka * (1700 + H)) in *. assert (C0 : 0 < c) by (assert (0 <= H * al) by (apply Rmult_le_pos; lra); nra).
  assert (Q : H * al / (g * g') < c).
  { apply Rmult_lt_reg_r with (g * g'); [lra|]. replace (H * al / (g * g') * (g * g')) with (H * al) by (field; lra). nra. }
  assert (Q2 : c <= be - ka * (g + g' + H)) by (unfold c; nra).
  assert (Q3 : (g' - g) * (H * al / (g * g')) < (g' - g) * (be - ka * (g + g' + H))) by (apply Rmult_lt_compat_l; lra).
  lra.
Qed.

Definition air_ratio (f : R) : R := (f + 3834 / 10) / (1 + 367 / 100000 * f).

Lemma conductivity_ratio : forall u (f f' : R), u <> USNull -> -100 <= f -> f < f' -> f' <= 550 ->
  conductivity_air (N := RNum) u f * air_ratio f < conductivity_air (N := RNum) u f' * air_ratio f'.
Proof.
  intros u f f' U L1 L2 L3. rewrite !conductivity_R by exact U. unfold air_ratio.
  set (H := 3834 / 10 - G0).
  assert (X : forall k0 k1 k2 x : R, -100 <= x -> (k0 + k1 * x - k2 * (x * x)) * ((x + 3834 / 10) / (1 + 367 / 100000 * x)) =
    G0 * ((k0 - k1 * G0 - k2 * (G0 * G0) + (k1 + 2 * k2 * G0) * (x + G0) - k2 * ((x + G0) * (x + G0))) * (x + G0 + H) / (x + G0))).
  { intros k0 k1 k2 x Hx. unfold H, G0. field. lra. }
  destruct u; [congruence|..].
  - rewrite !X by lra. apply Rmult_lt_compat_l; [unfold G0; lra|]. apply kr_grows; unfold H, G0 in *; lra.
  - rewrite !X by lra. apply Rmult_lt_compat_l; [unfold G0; lra|]. apply kr_grows; unfold H, G0 in *; lra.
Qed.

Lemma ratio_falls : forall f f', -100 <= f -> f < f' -> 0 < air_ratio f' < air_ratio f.
Proof.
  intros f f' L1 L2. unfold air_ratio. split; [apply Rdiv_lt_0_compat; lra|].
  apply Rmult_lt_reg_r with ((1 + 367 / 100000 * f) * (1 + 367 / 100000 * f')); [apply Rmult_lt_0_compat; lra|].
  replace (_ / (1 + 367 / 100000 * f') * _) with ((f' + 3834 / 10) * (1 + 367 / 100000 * f)) by (field; lra).
  replace (_ / (1 + 367 / 100000 * f) * _) with ((f + 3834 / 10) * (1 + 367 / 100000 * f')) by (field; lra). nra.
Qed.

(** Viscous and density part of a forced convection term. *)
Lemma forced_term : forall u (A a ta f f' : R), u <> USNull -> 0 < A -> 0 < a < 2 / 3 -> -100 <= ta -> ta <= f -> f < f' -> f' <= 550 ->
  Rpower (A * (air_ratio f * / Rpower (f + 273) (3 / 2))) a * (conductivity_air (N := RNum) u f * (f - ta)) <
  Rpower (A * (air_ratio f' * / Rpower (f' + 273) (3 / 2))) a * (conductivity_air (N := RNum) u f' * (f' - ta)).
Proof.
  intros u A a ta f f' U HA Ha Hta L0 L1 L2.
  assert (X := conductivity_ratio u f f' U ltac:(lra) L1 L2). destruct (ratio_falls f f' ltac:(lra) L1) as (R1 & R2).
  assert (KP : forall x : R, -100 <= x <= 550 -> 0 < conductivity_air (N := RNum) u x).
  { intros x Hx. destruct (near_conductivity x ltac:(lra)) as (_ & K1 & K2). destruct u; [congruence|exact K1|exact K2]. }
  assert (K1 := KP f ltac:(lra)). assert (K2 := KP f' ltac:(lra)). clear KP.
  set (k := conductivity_air (N := RNum) u f) in *. set (k' := conductivity_air (N := RNum) u f') in *. change (F RNum) with R in (type of k), (type of k'). clearbody k k'.
  set (r := air_ratio f) in *. set (r' := air_ratio f') in *. clearbody r r'.
  assert (S : forall r t : R, 0 < r -> 0 < t -> Rpower (A * (r * / Rpower t (3 / 2))) a = Rpower A a * (r * / Rpower r (1 - a) * (/ t * Rpower t (1 - 3 / 2 * a)))).
  { clear - HA Ha. intros r t Hr Ht.
    assert (0 < / Rpower t (3 / 2)) by apply Rinv_0_lt_compat, exp_pos.
    rewrite <- !Rpower_mult_distr by (try apply Rmult_lt_0_compat; assumption).
    f_equal. rewrite <- Rpower_Ropp, Rpower_mult. f_equal.
    - replace a with (1 + - (1 - a)) at 1 by ring. rewrite Rpower_plus, Rpower_1, Rpower_Ropp by assumption. reflexivity.
    - rewrite <- (Rpower_1 t Ht) at 2. rewrite <- Rpower_Ropp, <- Rpower_plus. f_equal. lra. }
  rewrite !S by lra. clear S.
  assert (B1 : / Rpower r (1 - a) < / Rpower r' (1 - a)).
  { apply Rinv_lt_contravar; [apply Rmult_lt_0_compat; apply exp_pos|]. apply Rlt_Rpower_l; lra. }
  assert (B2 : Rpower (f + 273) (1 - 3 / 2 * a) < Rpower (f' + 273) (1 - 3 / 2 * a)) by (apply Rlt_Rpower_l; lra).
  assert (B3 : / (f + 273) * (f - ta) < / (f' + 273) * (f' - ta)).
  { apply Rmult_lt_reg_l with ((f + 273) * (f' + 273)); [apply Rmult_lt_0_compat; lra|].
    replace (_ * (/ (f + 273) * _)) with ((f' + 273) * (f - ta)) by (field; lra). replace (_ * (/ (f' + 273) * _)) with ((f + 273) * (f' - ta)) by (field; lra). nra. }
  assert (P1 : 0 < / Rpower r (1 - a)) by apply Rinv_0_lt_compat, exp_pos.
  assert (P2 : 0 < Rpower (f + 273) (1 - 3 / 2 * a)) by apply exp_pos.
  assert (P3 : 0 <= / (f + 273) * (f - ta)) by (apply Rmult_le_pos; [left; apply Rinv_0_lt_compat; lra|lra]).
  assert (P4 : 0 < Rpower A a) by apply exp_pos.
  set (b := / Rpower r (1 - a)) in *. set (b' := / Rpower r' (1 - a)) in *. set (w := Rpower (f + 273) _) in *. set (w' := Rpower (f' + 273) _) in *.
  replace (Rpower A a * (r * b * (/ (f + 273) * w)) * (k * (f - ta))) with (Rpower A a * ((k * r) * (b * (w * (/ (f + 273) * (f - ta)))))) by ring.
  replace (Rpower A a * (r' * b' * (/ (f' + 273) * w')) * (k' * (f' - ta))) with (Rpower A a * ((k' * r') * (b' * (w' * (/ (f' + 273) * (f' - ta)))))) by ring.
  apply Rmult_lt_compat_l; [exact P4|]. clearbody b b' w w'.
  set (z := / (f + 273) * (f - ta)) in *. set (z' := / (f' + 273) * (f' - ta)) in *. clearbody z z'.
  apply Rmult_le_0_lt_compat; [apply Rmult_le_pos; lra|repeat apply Rmult_le_pos; lra|exact X|].
  apply Rmult_le_0_lt_compat; [lra|repeat apply Rmult_le_pos; lra|exact B1|].
  apply Rmult_le_0_lt_compat; lra.
Qed.

(** Reynolds number as used by [forced_term]. *)
Definition dnum (u : UnitSystem) (e : R) : R :=
  match u with Imperial => 80695 / 1000000 - 2901 / 1000000000 * e + 37 / 1000000000000 * (e * e)
  | _ => 1293 / 1000 - 1525 / 10000000 * e + 6379 / 1000000000000 * (e * e) end.
Definition vnum (u : UnitSystem) : R := match u with Imperial => 353 / 100000 / 3600 | _ => 1458 / 1000000000 end.

Lemma dnum_pos : forall u e, u <> USNull -> 0 < dnum u e.
Proof.
  intros u e U. assert (P := density_pos u e 0 U ltac:(lra)). rewrite density_R in P by exact U. fold (dnum u e) in P. unfold Rdiv in P.
  replace (/ (1 + 367 * / 100000 * 0)) with 1 in P by field. lra.
Qed.

Lemma vnum_pos : forall u, 0 < vnum u.
Proof. intros []; cbn [vnum]; lra. Qed.

Lemma reynolds_form : forall u (d v e f : R), u <> USNull -> -100 <= f ->
  d * density_air (N := RNum) u e f * v / viscosity_air (N := RNum) u f =
  d * v * dnum u e / vnum u * (air_ratio f * / Rpower (f + 273) (3 / 2)).
Proof.
  intros u d v e f U H. rewrite density_R, viscosity_R by exact U. fold (dnum u e). fold (vnum u).
  rewrite (Rpow_frac (f + 273) (3 / 2) 1) by lra. destruct Rlt_dec; [|lra].
  assert (P : 0 < Rpower (f + 273) (3 / 2)) by apply exp_pos. set (p := Rpower _ _) in *. clearbody p.
  assert (V := vnum_pos u). unfold air_ratio. field. repeat split; lra.
Qed.

Lemma ratio_pos : forall f, -100 <= f -> 0 < air_ratio f * / Rpower (f + 273) (3 / 2).
Proof.
  intros f H. apply Rmult_lt_0_compat; [unfold air_ratio; apply Rdiv_lt_0_compat; lra|apply Rinv_0_lt_compat, exp_pos].
Qed.

Section Hotter.
Variable u : UnitSystem.
Hypothesis U : u <> USNull.
Variable d : R.
Hypothesis D : 0 < d.
Variable w : ThermalRatingWeather RNum.
Hypothesis V : tw_Validate w = true.

Let ta : R := tw_temperature_air w.
Let v : R := tw_speed_wind w.
Let film (t : R) : R := (t + ta) / 2.
Let re (t : R) : R := d * density_air (N := RNum) u (tw_elevation w) (film t) * v / viscosity_air (N := RNum) u (film t).
Let k (t : R) : R := conductivity_air (N := RNum) u (film t).

Lemma term_grows : forall a t t' : R, 0 < a < 2 / 3 -> ta <= t -> t < t' -> t' <= 1000 ->
  Rpow_c (re t) a * k t * (t - ta) <= Rpow_c (re t') a * k t' * (t' - ta) /\
  (0 < v -> Rpow_c (re t) a * k t * (t - ta) < Rpow_c (re t') a * k t' * (t' - ta)).
Proof using U D V.
  intros a t t' Ha L1 L2 L3. destruct (weather_valid w V) as (_ & _ & _ & Vs & Vt). fold v in Vs. fold ta in Vt.
  unfold re. rewrite !reynolds_form by (try exact U; unfold film; lra).
  assert (DN := dnum_pos u (tw_elevation w) U). assert (VN := vnum_pos u).
  destruct (Rle_lt_or_eq_dec _ _ Vs) as [P|P].
  - assert (HA : 0 < d * v * dnum u (tw_elevation w) / vnum u) by (apply Rdiv_lt_0_compat; [repeat apply Rmult_lt_0_compat|]; assumption).
    set (A := d * v * dnum u (tw_elevation w) / vnum u) in *. clearbody A.
    assert (T := forced_term u A a ta (film t) (film t') U HA Ha ltac:(lra) ltac:(unfold film; lra) ltac:(unfold film; lra) ltac:(unfold film; lra)).
    assert (Q : forall x, ta <= x -> Rpow_c (A * (air_ratio (film x) * / Rpower (film x + 273) (3 / 2))) a = Rpower (A * (air_ratio (film x) * / Rpower (film x + 273) (3 / 2))) a).
    { intros x Hx. rewrite frac01 by lra. destruct Rlt_dec as [L|L]; [reflexivity|exfalso; apply L].
      apply Rmult_lt_0_compat; [exact HA|apply ratio_pos; unfold film; lra]. }
    rewrite !Q by lra. set (x := Rpower _ a) in *. set (x' := Rpower (_ * (air_ratio (film t') * _)) a) in *.
    assert (G : x * k t * (t - ta) < x' * k t' * (t' - ta)).
    { replace (x * k t * (t - ta)) with (2 * (x * (k t * (film t - ta)))) by (unfold film; field).
      replace (x' * k t' * (t' - ta)) with (2 * (x' * (k t' * (film t' - ta)))) by (unfold film; field). unfold k. lra. }
    split; [left; exact G|intros _; exact G].
  - split; [|lra]. rewrite <- P. replace (d * 0 * dnum u (tw_elevation w) / vnum u) with 0 by (field; lra).
    rewrite !Rmult_0_l, (Rpow_frac_0 a 0), !Rmult_0_l by lra. lra.
Qed.

Lemma k_grows : forall t t' : R, ta <= t -> t < t' -> t' <= 1000 -> 0 < k t < k t'.
Proof using U V d.
  intros t t' L1 L2 L3. destruct (weather_valid w V) as (_ & _ & _ & _ & Vt). fold ta in Vt. unfold k.
  assert (-100 <= film t < film t') by (unfold film; lra). assert (film t' <= 550) by (unfold film; lra).
  destruct (near_conductivity (film t) ltac:(lra)) as (_ & K1 & K2).
  split; [destruct u; [congruence|exact K1|exact K2]|]. rewrite !conductivity_R by exact U.
  assert (0 < (film t' - film t) * (1200 - (film t + film t'))) by (apply Rmult_lt_0_compat; lra).
  destruct u; [congruence|..]; nra.
Qed.

Lemma natural_grows : forall t t' : R, ta <= t -> t < t' -> t' <= 1000 ->
  0 <= HeatConvectionNatural (N := RNum) u d w (density_air (N := RNum) u (tw_elevation w) (film t)) t <
  HeatConvectionNatural (N := RNum) u d w (density_air (N := RNum) u (tw_elevation w) (film t')) t'.
Proof using U D V.
  intros t t' L1 L2 L3. destruct (weather_valid w V) as (_ & _ & _ & _ & Vt). fold ta in Vt.
  rewrite !natural_R by exact U. fold ta.
  assert (KN := knat_pos u). assert (DD := Rpow_frac_pos d (3 / 4) 0 ltac:(lra) D).
  assert (S : forall x, ta <= x -> Rpow_c (density_air (N := RNum) u (tw_elevation w) (film x)) (1 / 2) * Rpow_c (x - ta) (5 / 4) =
    Rpow_c (density_air (N := RNum) u (tw_elevation w) (film x) * (x - ta)) (1 / 2) * Rpow_c (x - ta) (3 / 4)).
  { intros x Hx. assert (P := density_pos u (tw_elevation w) (film x) U ltac:(unfold film; lra)).
    rewrite frac_mul by lra. rewrite Rmult_assoc. f_equal.
    rewrite (Rpow_frac (x - ta) (5 / 4) 1) by lra. rewrite !frac01 by lra. destruct Rlt_dec; [|ring].
    rewrite <- Rpower_plus. f_equal. lra. }
  set (c := knat u) in *. set (q := Rpow_c d (3 / 4)) in *.
  replace (c * Rpow_c (density_air u (tw_elevation w) (film t)) (1 / 2) * q * Rpow_c (t - ta) (5 / 4)) with
    (c * q * (Rpow_c (density_air u (tw_elevation w) (film t)) (1 / 2) * Rpow_c (t - ta) (5 / 4))) by ring.
  replace (c * Rpow_c (density_air u (tw_elevation w) (film t')) (1 / 2) * q * Rpow_c (t' - ta) (5 / 4)) with
    (c * q * (Rpow_c (density_air u (tw_elevation w) (film t')) (1 / 2) * Rpow_c (t' - ta) (5 / 4))) by ring.
  rewrite !S by lra. clear S.
  assert (P : forall x, 0 <= Rpow_c x (1 / 2)) by (intros x; apply frac_pos; lra).
  assert (P' : forall x, 0 <= Rpow_c x (3 / 4)) by (intros x; apply frac_pos; lra).
  assert (CQ : 0 < c * q) by (apply Rmult_lt_0_compat; assumption).
  split; [repeat apply Rmult_le_pos; try apply P; try apply P'; lra|].
  apply Rmult_lt_compat_l; [exact CQ|].
  assert (DN := dnum_pos u (tw_elevation w) U).
  assert (LT : density_air (N := RNum) u (tw_elevation w) (film t) * (t - ta) < density_air (N := RNum) u (tw_elevation w) (film t') * (t' - ta)).
  { rewrite !density_R by exact U. fold (dnum u (tw_elevation w)). set (n := dnum u (tw_elevation w)) in *. clearbody n.
    assert (0 < 1 + 367 / 100000 * film t) by (unfold film; lra). assert (0 < 1 + 367 / 100000 * film t') by (unfold film; lra).
    apply Rmult_lt_reg_r with ((1 + 367 / 100000 * film t) * (1 + 367 / 100000 * film t')); [apply Rmult_lt_0_compat; assumption|].
    replace (n / (1 + 367 / 100000 * film t) * (t - ta) * ((1 + 367 / 100000 * film t) * (1 + 367 / 100000 * film t'))) with (n * ((t - ta) * (1 + 367 / 100000 * film t'))) by (field; lra).
    replace (n / (1 + 367 / 100000 * film t') * (t' - ta) * ((1 + 367 / 100000 * film t) * (1 + 367 / 100000 * film t'))) with (n * ((t' - ta) * (1 + 367 / 100000 * film t))) by (field; lra).
    apply Rmult_lt_compat_l; [exact DN|]. unfold film. nra. }
  apply Rmult_le_0_lt_compat; [apply P|apply P'| |].
  - apply frac_lt; [lra|]. split; [|exact LT]. apply Rmult_le_pos; [|lra]. left. apply density_pos; [exact U|unfold film; lra].
  - apply frac_lt; lra.
Qed.

Lemma convection_falls : forall t t' : R, ta <= t -> t < t' -> t' <= 1000 ->
  convection (N := RNum) u d w t' < convection (N := RNum) u d w t.
Proof using U D V.
  intros t t' L1 L2 L3. rewrite !convection_R by exact U. cbv zeta. fold ta. fold (film t) (film t').
  rewrite !forced_R. cbv zeta. fold ta. fold v. fold (re t) (re t') (k t) (k t').
  destruct (natural_grows t t' L1 L2 L3) as (N0 & N1). set (n := HeatConvectionNatural (N := RNum) _ _ _ _ t) in *. set (n' := HeatConvectionNatural (N := RNum) _ _ _ _ t') in *.
  destruct (weather_valid w V) as (Va & _ & _ & Vs & _). fold v in Vs.
  assert (G := factor_pos _ (angle_range _ Va)). set (g := wind_factor _) in *.
  destruct (k_grows t t' L1 L2 L3) as (K0 & K1).
  destruct (term_grows (52 / 100) t t' ltac:(lra) L1 L2 L3) as (A1 & _).
  destruct (term_grows (6 / 10) t t' ltac:(lra) L1 L2 L3) as (B1 & B2).
  assert (KD : k t * (t - ta) < k t' * (t' - ta)) by (apply Rle_lt_trans with (k t' * (t - ta)); [apply Rmult_le_compat_r; lra|apply Rmult_lt_compat_l; lra]).
  set (p := Rpow_c (re t) (52 / 100)) in *. set (p' := Rpow_c (re t') (52 / 100)) in *.
  assert (F1 : g * (101 / 100 + 135 / 100 * p) * k t * (t - ta) < g * (101 / 100 + 135 / 100 * p') * k t' * (t' - ta)).
  { replace (g * (101 / 100 + 135 / 100 * p) * k t * (t - ta)) with (g * (101 / 100 * (k t * (t - ta)) + 135 / 100 * (p * k t * (t - ta)))) by ring.
    replace (g * (101 / 100 + 135 / 100 * p') * k t' * (t' - ta)) with (g * (101 / 100 * (k t' * (t' - ta)) + 135 / 100 * (p' * k t' * (t' - ta)))) by ring.
    apply Rmult_lt_compat_l; lra. }
  set (o := Rpow_c (re t) (6 / 10)) in *. set (o' := Rpow_c (re t') (6 / 10)) in *.
  assert (F2 : g * (754 / 1000) * o * k t * (t - ta) < Rmax n' (g * (754 / 1000) * o' * k t' * (t' - ta))).
  { destruct (Rle_lt_or_eq_dec _ _ Vs) as [P|P].
    - eapply Rlt_le_trans; [|apply Rmax_r]. replace (g * (754 / 1000) * o * k t * (t - ta)) with (g * (754 / 1000) * (o * k t * (t - ta))) by ring.
      replace (g * (754 / 1000) * o' * k t' * (t' - ta)) with (g * (754 / 1000) * (o' * k t' * (t' - ta))) by ring. apply Rmult_lt_compat_l; [lra|exact (B2 P)].
    - eapply Rlt_le_trans; [|apply Rmax_l]. assert (O : o = 0). { unfold o, re. rewrite <- P, Rmult_0_r. unfold Rdiv. rewrite Rmult_0_l. apply (Rpow_frac_0 _ 0). lra. }
      rewrite O, Rmult_0_r, !Rmult_0_l. change (F RNum) with R in *. lra. }
  set (f1 := g * (101 / 100 + 135 / 100 * p) * k t * (t - ta)) in *. set (f1' := g * (101 / 100 + 135 / 100 * p') * k t' * (t' - ta)) in *.
  set (f2 := g * (754 / 1000) * o * k t * (t - ta)) in *. set (f2' := g * (754 / 1000) * o' * k t' * (t' - ta)) in *.
  change (F RNum) with R in *. clearbody f1 f1' f2 f2'. clear - N1 F1 F2.
  assert (Rmax n (Rmax f1 f2) < Rmax n' (Rmax f1' f2')); [|lra].
  revert F2. unfold Rmax. repeat destruct Rle_dec; lra.
Qed.
End Hotter.

(** ** More wind *)
Section Windier.
Variable u : UnitSystem.
Hypothesis U : u <> USNull.
Variable d : R.
Hypothesis D : 0 < d.

(** Forced convection for an angle and a speed, all else fixed. *)
Lemma forced_windier : forall (w w' : ThermalRatingWeather RNum) (t k p m : R), 0 < k -> 0 < p -> 0 < m ->
  0 <= tw_angle_wind w -> tw_angle_wind w' <= 90 -> 0 <= tw_speed_wind w ->
  (tw_angle_wind w : R) <= tw_angle_wind w' -> (tw_speed_wind w : R) <= tw_speed_wind w' -> (tw_temperature_air w' : R) = tw_temperature_air w ->
  tw_temperature_air w < t ->
  HeatConvectionForced (N := RNum) d w k p m t <= HeatConvectionForced (N := RNum) d w' k p m t /\
  ((tw_angle_wind w : R) < tw_angle_wind w' \/ (tw_speed_wind w : R) < tw_speed_wind w' ->
   HeatConvectionForced (N := RNum) d w k p m t < HeatConvectionForced (N := RNum) d w' k p m t).
Proof using D.
  intros w w' t k p m K0 P0 M0 A0 A1 S0 A S T0 T. rewrite !forced_R, T0. cbv zeta.
  assert (R1 := angle_range (tw_angle_wind w) ltac:(lra)). assert (R2 := angle_range (tw_angle_wind w') ltac:(lra)).
  assert (G1 := factor_pos _ R1). assert (G2 := factor_pos _ R2).
  assert (KP := K_pos).
  assert (GL : (tw_angle_wind w : R) < tw_angle_wind w' -> wind_factor (tw_angle_wind w * (K / 180)) < wind_factor (tw_angle_wind w' * (K / 180))).
  { intros L. apply factor_grows; [apply R1| |apply R2]. apply Rmult_lt_compat_r; lra. }
  assert (GW : wind_factor (tw_angle_wind w * (K / 180)) <= wind_factor (tw_angle_wind w' * (K / 180))).
  { destruct (Rle_lt_or_eq_dec _ _ A) as [L|L]; [left; apply GL, L|rewrite L; lra]. }
  set (g := wind_factor (tw_angle_wind w * _)) in *. set (g' := wind_factor (tw_angle_wind w' * _)) in *. clearbody g g'.
  set (s := tw_speed_wind w) in *. set (s' := tw_speed_wind w') in *. change (F RNum) with R in (type of s), (type of s').
  assert (C : 0 < d * p / m) by (apply Rdiv_lt_0_compat; [apply Rmult_lt_0_compat|]; assumption).
  replace (d * p * s / m) with (d * p / m * s) by (field; lra). replace (d * p * s' / m) with (d * p / m * s') by (field; lra).
  set (c := d * p / m) in *. clearbody c.
  assert (CS : 0 <= c * s) by (apply Rmult_le_pos; lra). assert (CL : c * s <= c * s') by (apply Rmult_le_compat_l; lra).
  assert (X1 := frac_le (c * s) (c * s') (52 / 100) ltac:(lra) (conj CS CL)). assert (X2 := frac_le (c * s) (c * s') (6 / 10) ltac:(lra) (conj CS CL)).
  assert (Y1 : s < s' -> Rpow_c (c * s) (52 / 100) < Rpow_c (c * s') (52 / 100)).
  { intros L. apply frac_lt; [lra|]. split; [exact CS|apply Rmult_lt_compat_l; lra]. }
  assert (Y2 : s < s' -> Rpow_c (c * s) (6 / 10) < Rpow_c (c * s') (6 / 10)).
  { intros L. apply frac_lt; [lra|]. split; [exact CS|apply Rmult_lt_compat_l; lra]. }
  assert (N1 := frac_pos (c * s) (52 / 100) ltac:(lra)). assert (N2 := frac_pos (c * s) (6 / 10) ltac:(lra)).
  assert (N3 : s < s' -> 0 < Rpow_c (c * s') (6 / 10)) by (intros L; specialize (Y2 L); lra).
  set (x := Rpow_c (c * s) (52 / 100)) in *. set (x' := Rpow_c (c * s') (52 / 100)) in *. set (y := Rpow_c (c * s) (6 / 10)) in *. set (y' := Rpow_c (c * s') (6 / 10)) in *.
  assert (Q : 0 < k * (t - tw_temperature_air w)) by (apply Rmult_lt_0_compat; lra).
  set (q := k * (t - tw_temperature_air w)) in *.
  assert (E1 : forall h z : R, h * (101 / 100 + 135 / 100 * z) * k * (t - tw_temperature_air w) = h * (101 / 100 + 135 / 100 * z) * q) by (intros h z; unfold q; ring).
  assert (E2 : forall h z : R, h * (754 / 1000) * z * k * (t - tw_temperature_air w) = h * z * (754 / 1000 * q)) by (intros h z; unfold q; ring).
  rewrite !E1, !E2. clearbody q x x' y y'. clear E1 E2.
  assert (W1 : g * (101 / 100 + 135 / 100 * x) * q <= g' * (101 / 100 + 135 / 100 * x') * q) by (apply Rmult_le_compat_r; [lra|]; apply Rmult_le_compat; lra).
  assert (W2 : g * y * (754 / 1000 * q) <= g' * y' * (754 / 1000 * q)) by (apply Rmult_le_compat_r; [lra|]; apply Rmult_le_compat; lra).
  split; [unfold Rmax; repeat destruct Rle_dec; lra|].
  intros [L|L].
  - assert (S1 : g * (101 / 100 + 135 / 100 * x) * q < g' * (101 / 100 + 135 / 100 * x') * q).
    { apply Rmult_lt_compat_r; [exact Q|]. apply Rlt_le_trans with (g' * (101 / 100 + 135 / 100 * x)); [apply Rmult_lt_compat_r; [lra|apply GL, L]|apply Rmult_le_compat_l; lra]. }
    assert (S2 : g * y * (754 / 1000 * q) < Rmax (g' * (101 / 100 + 135 / 100 * x') * q) (g' * y' * (754 / 1000 * q))).
    { destruct (Rle_lt_or_eq_dec _ _ N2) as [P|P].
      - eapply Rlt_le_trans; [|apply Rmax_r]. apply Rmult_lt_compat_r; [lra|]. apply Rlt_le_trans with (g' * y); [apply Rmult_lt_compat_r; [lra|apply GL, L]|apply Rmult_le_compat_l; lra].
      - eapply Rlt_le_trans; [|apply Rmax_l]. rewrite <- P, Rmult_0_r, Rmult_0_l. repeat apply Rmult_lt_0_compat; lra. }
    revert S2. unfold Rmax. repeat destruct Rle_dec; lra.
  - specialize (Y1 L). specialize (Y2 L). specialize (N3 L).
    assert (S1 : g * (101 / 100 + 135 / 100 * x) * q < g' * (101 / 100 + 135 / 100 * x') * q).
    { apply Rmult_lt_compat_r; [exact Q|]. apply Rle_lt_trans with (g' * (101 / 100 + 135 / 100 * x)); [apply Rmult_le_compat_r; lra|apply Rmult_lt_compat_l; lra]. }
    assert (S2 : g * y * (754 / 1000 * q) < g' * y' * (754 / 1000 * q)).
    { apply Rmult_lt_compat_r; [lra|]. apply Rle_lt_trans with (g' * y); [apply Rmult_le_compat_r; lra|apply Rmult_lt_compat_l; lra]. }
    revert S1 S2. unfold Rmax. repeat destruct Rle_dec; lra.
Qed.

Lemma convection_windier : forall (w w' : ThermalRatingWeather RNum) (t : R), tw_Validate w = true -> tw_Validate w' = true -> windier w w' ->
  tw_temperature_air w < t <= 1000 ->
  convection (N := RNum) u d w' t <= convection (N := RNum) u d w t /\
  ((tw_angle_wind w : R) < tw_angle_wind w' \/ (tw_speed_wind w : R) < tw_speed_wind w' ->
   convection (N := RNum) u d w' t < convection (N := RNum) u d w t \/ convection (N := RNum) u d w' t = convection (N := RNum) u d (still w) t).
Proof using U D.
  intros w w' t V V' [WA WS WE WT] T. destruct (weather_valid w V) as (Va & Ve & Vr & Vs & Vt). destruct (weather_valid w' V') as (Va' & _ & _ & Vs' & _).
  rewrite !convection_R by exact U. cbv zeta. rewrite WT, WE. cbn [still tw_elevation tw_temperature_air].
  set (f := (t + tw_temperature_air w) / 2). assert (FR : -100 <= f <= 550) by (unfold f; lra).
  assert (K0 : 0 < conductivity_air (N := RNum) u f) by (destruct (near_conductivity f ltac:(lra)) as (_ & K1 & K2); destruct u; [congruence|exact K1|exact K2]).
  assert (M0 : 0 < viscosity_air (N := RNum) u f) by (destruct (near_viscosity f ltac:(lra)) as (_ & K1 & K2); destruct u; [congruence|exact K1|exact K2]).
  assert (P0 := density_pos u (tw_elevation w) f U ltac:(lra)).
  destruct (forced_windier w w' t _ _ _ K0 P0 M0 (proj1 Va) (proj2 Va') Vs WA WS WT (proj1 T)) as (A & B).
  assert (C := proj1 (forced_windier (still w) w' t _ _ _ K0 P0 M0 (Rle_refl 0) (proj2 Va') (Rle_refl 0) (proj1 Va') Vs' WT (proj1 T))).
  assert (N1 : HeatConvectionNatural (N := RNum) u d w' (density_air (N := RNum) u (tw_elevation w) f) t = HeatConvectionNatural (N := RNum) u d w (density_air (N := RNum) u (tw_elevation w) f) t).
  { rewrite !natural_R by exact U. rewrite WT. reflexivity. }
  assert (N2 : HeatConvectionNatural (N := RNum) u d (still w) (density_air (N := RNum) u (tw_elevation w) f) t = HeatConvectionNatural (N := RNum) u d w (density_air (N := RNum) u (tw_elevation w) f) t).
  { rewrite !natural_R by exact U. reflexivity. }
  rewrite N1, N2.
  clear N1 N2. set (n := HeatConvectionNatural _ _ w _ _) in *.
  set (a := HeatConvectionForced _ w _ _ _ _) in *. set (b := HeatConvectionForced _ w' _ _ _ _) in *. set (c := HeatConvectionForced _ (still w) _ _ _ _) in *.
  change (F RNum) with R in *. change (F RNum) with R in (type of n), (type of a), (type of b), (type of c). clearbody n a b c.
  split.
  - assert (Rmax n a <= Rmax n b) by (unfold Rmax; repeat destruct Rle_dec; lra). lra.
  - intros L. specialize (B L). destruct (Rle_lt_dec b n) as [Q|Q].
    + right. rewrite !Rmax_left by lra. reflexivity.
    + left. rewrite (Rmax_right n b) by lra. unfold Rmax. destruct Rle_dec; lra.
Qed.
End Windier.

(** ** API *)
Lemma hotter_cools : forall (h : HeatSolver RNum) (b : Cable RNum) (w : ThermalRatingWeather RNum) (t t' : R), hs_Validate h = true ->
  hs_cable h = Some (mkThermalRatingCable (Some b)) -> hs_weather h = Some w -> tw_temperature_air w <= t -> t < t' -> t' <= 1000 ->
  exists c c' : R, hs_HeatConvection h t = Ok c /\ hs_HeatConvection h t' = Ok c' /\ c' < c.
Proof.
  intros h b w t t' V C W L1 L2 L3. unfold hs_Validate in V. rewrite C, W in V. apply andb_prop in V. destruct V as (V & V2). apply andb_prop in V. destruct V as (V1 & V3).
  unfold hs_HeatConvection, base_of. rewrite C, W. cbn [deref obind trc_base]. apply cable_valid in V1. destruct V1 as (D & _).
  destruct (hs_units h) eqn:E; [discriminate V3|..]; (do 2 eexists; split; [reflexivity|]; split; [reflexivity|]; apply convection_falls; try assumption; discriminate).
Qed.

Lemma wind_cools : forall (h : HeatSolver RNum) (b : Cable RNum) (w w' : ThermalRatingWeather RNum) (t : R), hs_Validate h = true ->
  hs_cable h = Some (mkThermalRatingCable (Some b)) -> hs_weather h = Some w -> tw_Validate w' = true -> windier w w' -> tw_temperature_air w < t <= 1000 ->
  let conv v := hs_HeatConvection (mkHeatSolver (hs_cable h) (hs_units h) (Some v)) t in
  exists c c' c0 : R, conv w = Ok c /\ conv w' = Ok c' /\ conv (still w) = Ok c0 /\ c' <= c /\
    ((tw_angle_wind w : R) < tw_angle_wind w' \/ (tw_speed_wind w : R) < tw_speed_wind w' -> c' < c \/ c' = c0).
Proof.
  intros h b w w' t V C W V' WW T conv. unfold hs_Validate in V. rewrite C, W in V. apply andb_prop in V. destruct V as (V & V2). apply andb_prop in V. destruct V as (V1 & V3).
  unfold conv, hs_HeatConvection, base_of. cbn [hs_cable hs_units hs_weather deref obind]. rewrite C. cbn [deref obind trc_base]. apply cable_valid in V1. destruct V1 as (D & _).
  destruct (hs_units h) eqn:E; [discriminate V3|..]; (do 3 eexists; split; [reflexivity|]; split; [reflexivity|]; split; [reflexivity|]; apply convection_windier; try assumption; discriminate).
Qed.

Lemma grey_radiation : forall (h : HeatSolver RNum) (b : Cable RNum) (w : ThermalRatingWeather RNum) (t : R), hs_Validate h = true ->
  hs_cable h = Some (mkThermalRatingCable (Some b)) -> hs_weather h = Some w -> tw_temperature_air w <= t ->
  exists r : R, hs_HeatRadiation h t = Ok r /\
    (hs_units h = Metric -> agree (5 / 1000) (- r) (grey_body (cb_diameter b) (cb_emissivity b) t (tw_temperature_air w))) /\
    (hs_units h = Imperial -> agree (5 / 1000) (- r) (foot * grey_body (foot * cb_diameter b) (cb_emissivity b) t (tw_temperature_air w))).
Proof.
  intros h b w t V C W T. unfold hs_Validate in V. rewrite C, W in V. apply andb_prop in V. destruct V as (V & V2). apply andb_prop in V. destruct V as (V1 & V3).
  unfold hs_HeatRadiation, base_of. rewrite C, W. cbn [deref obind trc_base]. apply cable_valid in V1. destruct V1 as (D & _ & E & _).
  apply weather_valid in V2. destruct V2 as (_ & _ & _ & _ & Vt).
  eexists. split; [reflexivity|]. split; intros H; rewrite H.
  - assert (G := radiation_grey Metric b w t ltac:(discriminate) ltac:(lra) ltac:(lra) ltac:(lra)). cbn [metres] in G. rewrite !Rmult_1_l in G. exact G.
  - exact (radiation_grey Imperial b w t ltac:(discriminate) ltac:(lra) ltac:(lra) ltac:(lra)).
Qed.
