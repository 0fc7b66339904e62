(** Heat per foot and per metre agree. *)
From Coq Require Import ZArith Bool List Reals Lra Lia Psatz.
From Verif Require Import Num NumFacts ModelBase ModelCable ModelThermal SpecThermal SpecHeat
  ProofReal ProofVector ProofThermal ProofThermalTemp ProofThermalReal ProofHeat.
Import ListNotations.
Open Scope R_scope.

(** Pounds per cubic foot in kilograms per cubic metre, and pounds per foot in kilograms per metre. *)
Definition pound : R := 45359237 / 100000000.
Definition cd : R := pound / (foot * foot * foot).
Definition cv : R := pound / foot.

Lemma cd_eq : cd = 28349523125 / 1769802912.
Proof. unfold cd, pound, foot. field. Qed.
Lemma cv_eq : cv = 45359237 / 30480000.
Proof. unfold cv, pound, foot. field. Qed.

Lemma cd_val : 1601846 / 100000 < cd < 1601847 / 100000.
Proof. unfold cd, pound, foot. lra. Qed.
Lemma cv_val : 148816 / 100000 < cv < 148817 / 100000.
Proof. unfold cv, pound, foot. lra. Qed.

Lemma near_mul2 : forall k l x y x' y', near k x y -> near l x' y' -> 0 <= x -> 0 <= y -> 0 <= x' -> 0 <= y' -> 1 <= k -> 1 <= l ->
  near (k * l) (x * x') (y * y').
Proof. intros k l x y x' y' A B X Y X' Y' K L. apply near_mul; assumption. Qed.

Lemma near_conductivity : forall f : R, -150 <= f <= 1000 ->
  near (10005 / 10000) (conductivity_air (N := RNum) Imperial f) (foot * conductivity_air (N := RNum) Metric f) /\
  0 < conductivity_air (N := RNum) Imperial f /\ 0 < conductivity_air (N := RNum) Metric f.
Proof.
  intros f H. rewrite !conductivity_R by discriminate. unfold near, foot.
  assert (0 <= (f + 150) * (1000 - f)) by (apply Rmult_le_pos; lra).
  assert (0 <= f * f) by apply Rle_0_sqr.
  repeat split; lra.
Qed.

Lemma near_density : forall e f : R, -200 <= f ->
  near (1001 / 1000) (cd * density_air (N := RNum) Imperial e f) (density_air (N := RNum) Metric (foot * e) f).
Proof.
  intros e f H. rewrite !density_R by discriminate. assert (Q : 0 < / (1 + 367 / 100000 * f)) by (apply Rinv_0_lt_compat; lra).
  assert (G : near (1001 / 1000) (cd * (80695 / 1000000 - 2901 / 1000000000 * e + 37 / 1000000000000 * (e * e)))
    (1293 / 1000 - 1525 / 10000000 * (foot * e) + 6379 / 1000000000000 * (foot * e * (foot * e)))).
  { unfold near. rewrite cd_eq. unfold foot. assert (0 <= (e - 26200) * (e - 26200)) by apply Rle_0_sqr. assert (0 <= (e - 26400) * (e - 26400)) by apply Rle_0_sqr. assert (0 <= (e - 54700) * (e - 54700)) by apply Rle_0_sqr. assert (0 <= (e - 54800) * (e - 54800)) by apply Rle_0_sqr.
    split; lra. }
  apply (near_scale _ (/ (1 + 367 / 100000 * f))) in G; [|lra].
  revert G. match goal with |- near _ ?a ?b -> near _ ?c ?d => replace c with a by (unfold Rdiv; ring); replace d with b by (unfold Rdiv; ring) end. auto.
Qed.

Lemma near_viscosity : forall f : R, -200 <= f ->
  near (1001 / 1000) (cv * viscosity_air (N := RNum) Imperial f) (viscosity_air (N := RNum) Metric f) /\
  0 < viscosity_air (N := RNum) Imperial f /\ 0 < viscosity_air (N := RNum) Metric f.
Proof.
  intros f H. rewrite !viscosity_R by discriminate.
  assert (P := Rpow_frac_pos (f + 273) (3 / 2) 1 ltac:(lra) ltac:(lra)). assert (Q : 0 < / (f + 3834 / 10)) by (apply Rinv_0_lt_compat; lra).
  set (p := Rpow_c (f + 273) (3 / 2)) in *. set (q := / (f + 3834 / 10)) in *. assert (PQ : 0 < p * q) by (apply Rmult_lt_0_compat; assumption).
  split; [|split; repeat apply Rmult_lt_0_compat; lra].
  replace (cv * (353 / 100000 / 3600 * p * q)) with (p * q * (cv * (353 / 100000 / 3600))) by ring.
  replace (1458 / 1000000000 * p * q) with (p * q * (1458 / 1000000000)) by ring.
  apply near_scale; [lra|]. unfold near. rewrite cv_eq. lra.
Qed.

(** Reynolds numbers. *)
Lemma near_reynolds : forall d v e f : R, 0 <= d -> 0 <= v -> -200 <= f ->
  near (1001 / 1000 * (1001 / 1000)) (d * density_air (N := RNum) Imperial e f * v / viscosity_air (N := RNum) Imperial f)
    (foot * d * density_air (N := RNum) Metric (foot * e) f * (foot * v) / viscosity_air (N := RNum) Metric f) /\
  0 <= d * density_air (N := RNum) Imperial e f * v / viscosity_air (N := RNum) Imperial f /\
  0 <= foot * d * density_air (N := RNum) Metric (foot * e) f * (foot * v) / viscosity_air (N := RNum) Metric f.
Proof.
  intros d v e f D V H. assert (A := near_density e f H). destruct (near_viscosity f H) as (B & P & Q).
  assert (X := density_pos Imperial e f ltac:(discriminate) H). assert (Y := density_pos Metric (foot * e) f ltac:(discriminate) H).
  set (xi := density_air Imperial _ _) in *. set (xm := density_air Metric _ _) in *. set (mi := viscosity_air (N := RNum) Imperial f) in *. set (mm := viscosity_air (N := RNum) Metric f) in *.
  change (F RNum) with R in *. change (F RNum) with R in (type of xi). change (F RNum) with R in (type of xm). change (F RNum) with R in (type of mi). change (F RNum) with R in (type of mm).
  clearbody xi xm mi mm.
  assert (C := cd_val). assert (C' := cv_val). assert (F0 : 0 < foot) by (unfold foot; lra).
  split; [|split; (apply Rmult_le_pos; [repeat apply Rmult_le_pos; lra|left; apply Rinv_0_lt_compat; assumption])].
  apply near_inv in B; [|apply Rmult_lt_0_compat; lra|assumption].
  assert (I1 : 0 < / mi) by (apply Rinv_0_lt_compat, P). assert (I2 : 0 < / mm) by (apply Rinv_0_lt_compat, Q).
  assert (I3 : 0 < / (cv * mi)) by (apply Rinv_0_lt_compat, Rmult_lt_0_compat; lra).
  assert (G := near_mul2 _ _ _ _ _ _ A B). specialize (G ltac:(apply Rmult_le_pos; lra) ltac:(lra) ltac:(lra) ltac:(lra) ltac:(lra) ltac:(lra)).
  apply (near_scale _ (foot * foot * (d * v))) in G; [|repeat apply Rmult_le_pos; lra].
  replace (d * xi * v / mi) with (foot * foot * (d * v) * (cd * xi * / (cv * mi))).
  2: { unfold cd, cv, pound. field. lra. }
  replace (foot * d * xm * (foot * v) / mm) with (foot * foot * (d * v) * (xm * / mm)) by (field; lra).
  exact G.
Qed.

Lemma near_forced : forall (d : R) (wi wm : ThermalRatingWeather RNum) (t : R), 0 <= d -> tw_Validate wi = true -> same_weather wi wm ->
  tw_temperature_air wi <= t <= 1000 ->
  let f := (t + tw_temperature_air wi) / 2 in
  let hi := HeatConvectionForced (N := RNum) d wi (conductivity_air (N := RNum) Imperial f) (density_air (N := RNum) Imperial (tw_elevation wi) f) (viscosity_air (N := RNum) Imperial f) t in
  let hm := HeatConvectionForced (N := RNum) (foot * d) wm (conductivity_air (N := RNum) Metric f) (density_air (N := RNum) Metric (tw_elevation wm) f) (viscosity_air (N := RNum) Metric f) t in
  near (1003 / 1000) hi (foot * hm) /\ 0 <= hi /\ 0 <= hm.
Proof.
  intros d wi wm t D V [Sa Se _ Ss St] T f hi hm. destruct (weather_valid wi V) as (Va & Ve & _ & Vs & Vt).
  unfold hi, hm. rewrite !forced_R, Sa, Se, Ss, St. cbv zeta.
  assert (FR : -150 <= f <= 1000) by (unfold f; lra).
  destruct (near_reynolds d (tw_speed_wind wi) (tw_elevation wi) f D Vs ltac:(lra)) as (A & A1 & A2).
  destruct (near_conductivity f FR) as (B & B1 & B2).
  set (ri := _ / viscosity_air (N := RNum) Imperial f) in *. set (rm := _ / viscosity_air (N := RNum) Metric f) in *.
  set (ki := conductivity_air (N := RNum) Imperial f) in *. set (km := conductivity_air (N := RNum) Metric f) in *.
  assert (G := factor_pos _ (angle_range _ Va)). set (g := wind_factor _) in *.
  set (dt := t - tw_temperature_air wi). assert (DT : 0 <= dt) by (unfold dt; lra).
  change (F RNum) with R in *. change (F RNum) with R in (type of ri). change (F RNum) with R in (type of rm). change (F RNum) with R in (type of ki). change (F RNum) with R in (type of km). change (F RNum) with R in (type of dt).
  clearbody ri rm ki km g dt.
  assert (F0 : 0 < foot) by (unfold foot; lra).
  assert (K1 : 1 <= 1001 / 1000 * (1001 / 1000)) by lra.
  assert (N1 := near_pow _ _ _ (52 / 100) ltac:(lra) K1 A1 A2 A). assert (N2 := near_pow _ _ _ (6 / 10) ltac:(lra) K1 A1 A2 A).
  assert (P1 := frac_pos ri (52 / 100) ltac:(lra)). assert (P2 := frac_pos rm (52 / 100) ltac:(lra)).
  assert (P3 := frac_pos ri (6 / 10) ltac:(lra)). assert (P4 := frac_pos rm (6 / 10) ltac:(lra)).
  set (k := 1001 / 1000 * (1001 / 1000)) in *.
  assert (M : near k (101 / 100 + 135 / 100 * Rpow_c ri (52 / 100)) (101 / 100 + 135 / 100 * Rpow_c rm (52 / 100))).
  { apply near_plus; [apply near_refl; lra|apply near_scale; [lra|exact N1]]. }
  assert (KM : 0 <= foot * km) by (apply Rmult_le_pos; lra).
  assert (M1 := near_mul2 _ _ _ _ _ _ M B). specialize (M1 ltac:(lra) ltac:(lra) ltac:(lra) KM K1 ltac:(lra)).
  assert (M2 := near_mul2 _ _ _ _ _ _ N2 B). specialize (M2 P3 P4 ltac:(lra) KM K1 ltac:(lra)).
  apply (near_scale _ (g * dt)) in M1; [|apply Rmult_le_pos; lra].
  apply (near_scale _ (g * (754 / 1000) * dt)) in M2; [|repeat apply Rmult_le_pos; lra].
  assert (Q1 : forall r q, 0 <= r -> 0 <= q -> 0 <= g * (101 / 100 + 135 / 100 * r) * q * dt) by (intros r q R0 Q0; repeat apply Rmult_le_pos; lra).
  assert (Q2 : forall r q, 0 <= r -> 0 <= q -> 0 <= g * (754 / 1000) * r * q * dt) by (intros r q R0 Q0; repeat apply Rmult_le_pos; lra).
  split; [|split; (eapply Rle_trans; [|apply Rmax_l]); apply Q1; lra].
  rewrite <- RmaxRmult by lra.
  apply near_mono with (k * (10005 / 10000)); [unfold k; lra| | |].
  - eapply Rle_trans; [|apply Rmax_l]. apply Q1; lra.
  - eapply Rle_trans; [|apply Rmax_l]. apply Rmult_le_pos; [lra|]. apply Q1; lra.
  - apply near_max; [unfold k; lra| |].
    + revert M1. match goal with |- near _ ?a ?b -> near _ ?c ?d => replace c with a by ring; replace d with b by ring end. auto.
    + revert M2. match goal with |- near _ ?a ?b -> near _ ?c ?d => replace c with a by ring; replace d with b by ring end. auto.
Qed.

Lemma pow_lt4 : forall x y : R, 0 <= x < y -> x ^ 4 < y ^ 4.
Proof.
  intros x y H. assert (x * x < y * y) by (apply Rmult_le_0_lt_compat; lra). assert (0 <= x * x) by (apply Rmult_le_pos; lra).
  assert (x * x * (x * x) < y * y * (y * y)) by (apply Rmult_le_0_lt_compat; lra). simpl. lra.
Qed.

(** Constants of natural convection. *)
Lemma foot_34 : 4101 / 10000 <= Rpow_c foot (3 / 4) <= 4103 / 10000.
Proof.
  assert (P : 0 < foot) by (unfold foot; lra). rewrite frac01 by lra. destruct Rlt_dec as [L|]; [|lra]. clear L.
  assert (E : Rpower foot (3 / 4) ^ 4 = foot ^ 3).
  { rewrite <- !Rpower_pow by (try apply exp_pos; exact P). rewrite Rpower_mult. f_equal. simpl. lra. }
  assert (Q : 0 < Rpower foot (3 / 4)) by apply exp_pos. set (x := Rpower foot (3 / 4)) in *. unfold foot in E.
  split; apply Rnot_lt_le; intros L.
  - assert (x ^ 4 < (4101 / 10000) ^ 4) by (apply pow_lt4; lra). lra.
  - assert ((4103 / 10000) ^ 4 < x ^ 4) by (apply pow_lt4; lra). lra.
Qed.

Lemma cd_12 : 40022 / 10000 <= Rpow_c cd (1 / 2) <= 40024 / 10000.
Proof.
  assert (V := cd_val). assert (P : 0 < cd) by lra. rewrite frac01 by lra. destruct Rlt_dec as [L|]; [|lra]. clear L.
  replace (1 / 2) with (/ 2) by lra. rewrite Rpower_sqrt by exact P. assert (E := sqrt_sqrt cd ltac:(lra)). assert (Q := sqrt_pos cd). set (x := sqrt cd) in *. clearbody x. split; nra.
Qed.

Lemma near_natural : forall (d : R) (wi wm : ThermalRatingWeather RNum) (t f : R), 0 <= d -> same_weather wi wm ->
  tw_temperature_air wi <= t -> -200 <= f ->
  let hi := HeatConvectionNatural (N := RNum) Imperial d wi (density_air (N := RNum) Imperial (tw_elevation wi) f) t in
  let hm := HeatConvectionNatural (N := RNum) Metric (foot * d) wm (density_air (N := RNum) Metric (tw_elevation wm) f) t in
  near (1003 / 1000) hi (foot * hm) /\ 0 <= hi /\ 0 <= hm.
Proof.
  intros d wi wm t f D [_ Se _ _ St] T H hi hm. unfold hi, hm. clear hi hm. rewrite !natural_R by discriminate. rewrite Se, St.
  assert (A := near_density (tw_elevation wi) f H).
  assert (X := density_pos Imperial (tw_elevation wi) f ltac:(discriminate) H). assert (Y := density_pos Metric (foot * tw_elevation wi) f ltac:(discriminate) H).
  set (xi := density_air Imperial _ _) in *. set (xm := density_air Metric _ _) in *.
  assert (C := Rpow_frac_nonneg (t - tw_temperature_air wi) (5 / 4) 1 ltac:(lra)). set (c := Rpow_c (t - tw_temperature_air wi) (5 / 4)) in *.
  change (F RNum) with R in *. change (F RNum) with R in (type of xi). change (F RNum) with R in (type of xm). clearbody xi xm c.
  assert (V := cd_val). assert (F0 : 0 < foot) by (unfold foot; lra).
  assert (K1 : 1 <= 1001 / 1000) by lra.
  assert (CX : 0 <= cd * xi) by (apply Rmult_le_pos; lra). assert (Y0 : 0 <= xm) by lra.
  assert (H12 : 0 < 1 / 2 < 1) by lra.
  assert (N1 := near_pow (1001 / 1000) (cd * xi) xm (1 / 2) H12 K1 CX Y0 A).
  rewrite frac_mul in N1 by lra. rewrite (frac_mul foot d) by lra.
  assert (B1 := cd_12). assert (B2 := foot_34). set (q := Rpow_c cd (1 / 2)) in *. set (s := Rpow_c foot (3 / 4)) in *.
  assert (P1 := frac_pos xi (1 / 2) ltac:(lra)). assert (P2 := frac_pos xm (1 / 2) ltac:(lra)). assert (P3 := frac_pos d (3 / 4) ltac:(lra)).
  set (yi := Rpow_c xi (1 / 2)) in *. set (ym := Rpow_c xm (1 / 2)) in *. set (e := Rpow_c d (3 / 4)) in *. clearbody q s yi ym e.
  cbn [knat].
  assert (N2 : near (1001 / 1000) (1825 / 1000) (foot * (3645 / 1000) * (s * q))).
  { assert (4101 / 10000 * (40022 / 10000) <= s * q <= 4103 / 10000 * (40024 / 10000)) by (split; apply Rmult_le_compat; lra).
    unfold near, foot. lra. }
  assert (Q0 : 0 < s * q) by nra.
  assert (M := near_mul2 _ _ _ _ _ _ N1 N2).
  specialize (M ltac:(nra) ltac:(lra) ltac:(lra) ltac:(unfold foot; lra) ltac:(lra) ltac:(lra)).
  apply (near_scale _ (/ q * (e * c))) in M; [|apply Rmult_le_pos; [left; apply Rinv_0_lt_compat; lra|apply Rmult_le_pos; lra]].
  split; [|split; repeat apply Rmult_le_pos; lra].
  apply near_mono with (1001 / 1000 * (1001 / 1000)); [lra|repeat apply Rmult_le_pos; lra|repeat apply Rmult_le_pos; lra|].
  revert M. match goal with |- near _ ?a ?b -> near _ ?c ?d => replace c with a by (field; lra); replace d with b by (field; lra) end. auto.
Qed.

Lemma near_convection : forall (d : R) (wi wm : ThermalRatingWeather RNum) (t : R), 0 <= d -> tw_Validate wi = true -> same_weather wi wm ->
  tw_temperature_air wi <= t <= 1000 ->
  agree (3 / 1000) (convection (N := RNum) Imperial d wi t) (foot * convection (N := RNum) Metric (foot * d) wm t).
Proof.
  intros d wi wm t D V SW T. destruct (weather_valid wi V) as (_ & _ & _ & _ & Vt).
  assert (A := near_forced d wi wm t D V SW T). assert (B := near_natural d wi wm t ((t + tw_temperature_air wi) / 2) D SW ltac:(lra) ltac:(lra)).
  cbv zeta in A, B. rewrite !convection_R by discriminate. cbv zeta. rewrite (sw_air _ _ SW).
  set (hi := HeatConvectionForced _ wi _ _ _ _) in *. set (hm := HeatConvectionForced _ wm _ _ _ _) in *.
  set (ni := HeatConvectionNatural Imperial _ _ _ _) in *. set (nm := HeatConvectionNatural Metric _ _ _ _) in *.
  change (F RNum) with R in (type of hi), (type of hm), (type of ni), (type of nm). clearbody hi hm ni nm.
  destruct A as (A & A1 & A2), B as (B & B1 & B2). assert (F0 : 0 < foot) by (unfold foot; lra).
  assert (M := near_max (1003 / 1000) ni (foot * nm) hi (foot * hm) ltac:(lra) B A). rewrite RmaxRmult in M by lra.
  apply near_agree in M; [|lra|apply Rmult_le_pos; [lra|eapply Rle_trans; [exact B2|apply Rmax_l]]].
  unfold agree in *. replace (- Rmax ni hi - foot * - Rmax nm hm) with (- (Rmax ni hi - foot * Rmax nm hm)) by ring.
  replace (foot * - Rmax nm hm) with (- (foot * Rmax nm hm)) by ring. rewrite !Rabs_Ropp. lra.
Qed.

(** ** Radiation *)
Lemma radiation_units : forall (bi bm : Cable RNum) (wi wm : ThermalRatingWeather RNum) (t : R), same_surface bi bm -> same_weather wi wm ->
  agree (2 / 1000) (radiation (N := RNum) Imperial bi wi t) (foot * radiation (N := RNum) Metric bm wm t).
Proof.
  intros bi bm wi wm t [Sd Se _] [_ _ _ _ St]. rewrite !radiation_R by discriminate. rewrite Sd, Se, St. cbn [krad].
  set (z := _ - _). set (p := cb_diameter bi). set (e := cb_emissivity bi). change (F RNum) with R in (type of p), (type of e). clearbody z p e.
  unfold agree. replace (- (1656 / 1000 * p * e * z) - foot * - (178 / 10 * (foot * p) * e * z)) with ((178 / 10 * (foot * foot) - 1656 / 1000) * (p * e * z)) by ring.
  replace (foot * - (178 / 10 * (foot * p) * e * z)) with (- (178 / 10 * (foot * foot)) * (p * e * z)) by ring.
  generalize (p * e * z). intros y. rewrite (Rabs_mult (178 / 10 * (foot * foot) - 1656 / 1000)), (Rabs_mult (- (178 / 10 * (foot * foot)))), Rabs_Ropp. assert (Q := Rabs_pos y). rewrite (Rabs_left (178 / 10 * (foot * foot) - 1656 / 1000)) by (unfold foot; lra).
  rewrite (Rabs_right (178 / 10 * (foot * foot))) by (unfold foot; lra).
  revert Q. generalize (Rabs y). intros r Q. unfold foot.
  lra.
Qed.

Lemma solar_units : forall (bi bm : Cable RNum) (wi wm : ThermalRatingWeather RNum), same_surface bi bm -> same_weather wi wm ->
  solar (N := RNum) bi wi = foot * solar (N := RNum) bm wm.
Proof.
  intros bi bm wi wm [Sd _ Sa] [_ _ Sr _ _]. unfold solar. rn. rewrite Sd, Sa, Sr. rring.
Qed.

(** ** API *)
Lemma heat_units : forall (hi hm : HeatSolver RNum) (bi bm : Cable RNum) (wi wm : ThermalRatingWeather RNum) (t : R),
  hs_Validate hi = true -> hs_Validate hm = true -> hs_units hi = Imperial -> hs_units hm = Metric ->
  hs_cable hi = Some (mkThermalRatingCable (Some bi)) -> hs_cable hm = Some (mkThermalRatingCable (Some bm)) ->
  hs_weather hi = Some wi -> hs_weather hm = Some wm -> same_surface bi bm -> same_weather wi wm ->
  tw_temperature_air wi <= t <= 1000 ->
  exists ci cm ri rm si sm : R,
    hs_HeatConvection hi t = Ok ci /\ hs_HeatConvection hm t = Ok cm /\ agree (3 / 1000) ci (foot * cm) /\
    hs_HeatRadiation hi t = Ok ri /\ hs_HeatRadiation hm t = Ok rm /\ agree (2 / 1000) ri (foot * rm) /\
    hs_HeatSolar hi = Ok si /\ hs_HeatSolar hm = Ok sm /\ si = foot * sm.
Proof.
  intros hi hm bi bm wi wm t Vi Vm Ui Um Ci Cm Wi Wm SS SW T.
  unfold hs_HeatConvection, hs_HeatRadiation, hs_HeatSolar, base_of. rewrite Ui, Um, Ci, Cm, Wi, Wm. cbn [deref obind trc_base].
  do 6 eexists. repeat (split; [reflexivity|]). 
  assert (Vb : 0 < cb_diameter bi /\ tw_Validate wi = true).
  { unfold hs_Validate in Vi. rewrite Ci, Wi in Vi. apply andb_prop in Vi. destruct Vi as (Vi & V2). apply andb_prop in Vi. destruct Vi as (Vi & _).
    apply cable_valid in Vi. split; [apply Vi|exact V2]. }
  destruct Vb as (Vb & Vw).
  split; [rewrite (ss_diameter _ _ SS); apply near_convection; try assumption; lra|].
  repeat (split; [reflexivity|]). split; [apply radiation_units; assumption|].
  repeat (split; [reflexivity|]). apply solar_units; assumption.
Qed.
