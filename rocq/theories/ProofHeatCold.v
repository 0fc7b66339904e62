(** Convection of a cable that is colder than the air, in binary64. *)
From Coq Require Import ZArith Bool List Reals Lra Lia.
From Flocq Require Import Core.Core Plus_error IEEE754.BinarySingleNaN.
From Verif Require Import Num NumFacts ModelBase ModelCable ModelThermal SpecThermal SpecHeat ProofThermal ProofSearch.
Import ListNotations.
Open Scope R_scope.

Lemma lit125_value : is_finite (b64_lit 125 (-2)) = true /\ B2R (b64_lit 125 (-2)) = 5 / 4.
Proof.
  split; [vm_compute; reflexivity|]. rewrite <- SF2R_B2SF.
  replace (B2SF (b64_lit 125 (-2))) with (SpecFloat.S754_finite false 5629499534213120 (-52)) by (vm_compute; reflexivity).
  unfold SF2R, F2R. cbn [Fnum Fexp cond_Zopp]. change (bpow radix2 (-52)) with (/ IZR (Z.pow_pos 2 52)).
  replace (Z.pow_pos 2 52) with 4503599627370496%Z by (vm_compute; reflexivity). lra.
Qed.

Lemma quarter_no_integer : forall z : Z, 5 / 4 <> IZR z.
Proof.
  intros z E. assert (H : IZR (4 * z) = IZR 5) by (rewrite mult_IZR; lra). apply eq_IZR in H. lia.
Qed.

(** The difference of two finite numbers is negative if the first is smaller. *)
Lemma minus_negative : forall x y : b64, is_finite x = true -> is_finite y = true -> B2R x < B2R y -> Rabs (B2R x - B2R y) <= 512 ->
  let z := @Bminus 53 1024 Hprec64 Hemax64 mode_NE x y in is_finite z = true /\ B2R z < 0.
Proof.
  intros x y X Y L S z. generalize (Bminus_correct 53 1024 Hprec64 Hemax64 mode_NE x y X Y).
  rewrite Rlt_bool_true by exact (rnd64_small _ S). fold z. intros (E & Fz & _). split; [exact Fz|]. rewrite E. fold (rnd64 (B2R x - B2R y)).
  assert (N0 : rnd64 (B2R x - B2R y) <= 0).
  { unfold rnd64. rewrite <- (round_0 radix2 (SpecFloat.fexp 53 1024) (round_mode mode_NE)). apply (rnd64_le _ 0). lra. }
  assert (N1 : rnd64 (B2R x - B2R y) <> 0); [|lra].
  unfold rnd64, Rminus. apply round_plus_neq_0.
  - exact (FLT_exp_valid (-1074) 53 (prec_gt_0_ := Hprec64)).
  - intros e. unfold SpecFloat.fexp, SpecFloat.emin. lia.
  - apply valid_rnd_round_mode.
  - apply generic_format_B2R.
  - apply generic_format_opp, generic_format_B2R.
  - lra.
Qed.

Lemma mult_nan : forall x y : b64, is_nan y = true -> is_nan (@Bmult 53 1024 Hprec64 Hemax64 mode_NE x y) = true.
Proof. intros x [s|s| |s m e p] H; try discriminate H. destruct x; reflexivity. Qed.

Lemma plus_nan : forall x y : b64, is_nan x = true -> is_nan (@Bplus 53 1024 Hprec64 Hemax64 mode_NE x y) = true.
Proof. intros [s|s| |s m e p] y H; try discriminate H. destruct y; reflexivity. Qed.

Lemma div_nan : forall x y : b64, is_nan x = true -> is_nan (@Bdiv 53 1024 Hprec64 Hemax64 mode_NE x y) = true.
Proof. intros [s|s| |s m e p] y H; try discriminate H. destruct y; reflexivity. Qed.

Lemma ltb_nan : forall x y : b64, is_nan x = true -> Bltb x y = false.
Proof. intros [s|s| |s m e p] y H; try discriminate H. reflexivity. Qed.

Section Cold.
Variable lm : Libm.
Hypothesis CP : c_pow lm.

Lemma bounds64 : forall (x : b64) (z : Z), is_finite x = true -> (0 <= z < 2 ^ 53)%Z ->
  (Bltb (b64_ofZ z) x = false -> B2R x <= IZR z) /\ (Bltb x (b64_ofZ (- z)) = false -> - IZR z <= B2R x).
Proof using.
  intros x z X Z0. destruct (ofZ_value z Z0) as (F1 & V1).
  assert (O : is_finite (b64_ofZ (- z)) = true /\ B2R (b64_ofZ (- z)) = - IZR z).
  { unfold b64_ofZ. generalize (binary_normalize_correct 53 1024 Hprec64 Hemax64 mode_NE (- z) 0 false). cbn zeta.
    assert (E : F2R (Float radix2 (- z) 0) = - IZR z) by (unfold F2R; cbn [Fnum Fexp bpow]; rewrite opp_IZR; ring).
    rewrite E. assert (G : generic_format radix2 (SpecFloat.fexp 53 1024) (- IZR z)).
    { apply generic_format_opp. rewrite <- V1. apply generic_format_B2R. }
    rewrite round_generic by (try apply valid_rnd_round_mode; exact G). rewrite Rlt_bool_true; [intros (A & B & _); split; assumption|].
    rewrite Rabs_Ropp, <- V1. apply abs_B2R_lt_emax. }
  destruct O as (F2 & V2). rewrite !Bltb_correct by assumption. rewrite V1, V2.
  split; case Rlt_bool_spec; intros H; try discriminate; intros _; lra.
Qed.

Lemma natural_cold : forall u (d : B64 lm) (w : ThermalRatingWeather (B64 lm)) (p t : B64 lm), u <> USNull ->
  is_finite (t : b64) = true -> is_finite (tw_temperature_air w : b64) = true -> B2R (t : b64) < B2R (tw_temperature_air w : b64) ->
  Rabs (B2R (t : b64) - B2R (tw_temperature_air w : b64)) <= 512 ->
  is_nan (HeatConvectionNatural (N := B64 lm) u d w p t : b64) = true.
Proof using CP.
  intros u d w p t U T A L S. unfold HeatConvectionNatural.
  destruct (minus_negative _ _ T A L S) as (F1 & N1). destruct lit125_value as (F2 & V2).
  assert (Q : is_nan (fpow (n := B64 lm) (fsub (n := B64 lm) t (tw_temperature_air w)) (flit (n := B64 lm) 125 (-2)) : b64) = true).
  { cbn [fpow fsub flit B64]. apply CP; [exact F1|exact F2|exact N1|rewrite V2; exact quarter_no_integer]. }
  destruct u; [congruence|..]; apply mult_nan; exact Q.
Qed.

Lemma convection_cold : forall u (d : B64 lm) (w : ThermalRatingWeather (B64 lm)) (t : B64 lm), u <> USNull ->
  is_finite (t : b64) = true -> is_finite (tw_temperature_air w : b64) = true -> B2R (t : b64) < B2R (tw_temperature_air w : b64) ->
  Rabs (B2R (t : b64) - B2R (tw_temperature_air w : b64)) <= 512 ->
  is_nan (convection (N := B64 lm) u d w t : b64) = true.
Proof using CP.
  intros u d w t U T A L S. unfold convection.
  set (p := density_air _ _ _). assert (Q := natural_cold u d w p t U T A L S). set (n := HeatConvectionNatural _ _ _ _ _) in *.
  replace (fltb n _) with false by (symmetry; apply ltb_nan; exact Q). apply mult_nan. exact Q.
Qed.

(** A steady current solver that validates at a temperature below that of the air. *)
Lemma cold_current : forall c (t : B64 lm) u (w : ThermalRatingWeather (B64 lm)), let s := sc_fresh c t u (Some w) in
  omap fst (sc_Validate s) = Ok true -> is_finite (t : b64) = true -> is_finite (tw_temperature_air w : b64) = true ->
  fltb (n := B64 lm) t (tw_temperature_air w) = true ->
  exists i st, omap fst (sc_Current s) = Ok i /\ is_nan (i : b64) = true /\
    omap fst (sc_StateHeatTransfer s) = Ok st /\ is_nan (ht_convection st : b64) = true.
Proof using CP.
  intros c t u w s V T A L. unfold s, sc_fresh in *. unfold sc_Validate, sc_Current, sc_StateHeatTransfer, sc_ensure, sc_Update in *.
  cbn [sc_set_weather sc_set_units sc_set_temperature sc_set_cable CurrentSolver_default sc_cable sc_temperature sc_units sc_weather sc_state sc_current sc_is_updated] in *.
  destruct (current_state_cases c t u (Some w)) as [(Z & E)|(b & w' & E1 & E2 & U & VC & VW & E & E')].
  { rewrite E in V. cbn [obind omap fst] in V. rewrite andb_false_r in V. discriminate V. }
  injection E2 as <-. rewrite E in *. cbn [obind] in *. rewrite E' in *. cbn [obind omap fst snd] in *.
  injection V as V. rewrite andb_true_r in V. apply andb_prop in V. destruct V as (V & _). apply andb_prop in V. destruct V as (V & _). apply andb_prop in V. destruct V as (_ & V).
  apply negb_true_iff, orb_false_iff in V. destruct V as (V1 & _).
  unfold tw_Validate in VW. apply andb_prop in VW. destruct VW as (_ & VW). apply negb_true_iff, orb_false_iff in VW. destruct VW as (_ & VW).
  assert (B1 : - IZR 100 <= B2R (t : b64)) by (apply (bounds64 t 100 T ltac:(lia)); exact V1).
  assert (B2 : B2R (tw_temperature_air w : b64) <= IZR 100) by (apply (bounds64 (tw_temperature_air w) 100 A ltac:(lia)); exact VW).
  assert (LR : B2R (t : b64) < B2R (tw_temperature_air w : b64)).
  { cbn [fltb B64] in L. rewrite Bltb_correct in L by assumption. revert L. case Rlt_bool_spec; intros H; [intros _; exact H|discriminate]. }
  assert (Q := convection_cold u (cb_diameter b) w t U T A LR ltac:(rewrite Rabs_left; lra)).
  do 2 eexists. split; [reflexivity|].
  assert (QR : is_nan (ht_resistance (sums b u w t) : b64) = true).
  { unfold sums. cbn [ht_resistance]. apply mult_nan. cbn [fadd B64]. apply plus_nan, plus_nan. exact Q. }
  split; [|split; [reflexivity|exact Q]].
  unfold amps. replace (fltb (ht_resistance (sums b u w t)) _) with false by (symmetry; apply ltb_nan; exact QR).
  cbn [fsqrt fdiv fabs B64].
  assert (G : forall x y : b64, is_nan x = true -> is_nan (@Bsqrt 53 1024 Hprec64 Hemax64 mode_NE (@Bdiv 53 1024 Hprec64 Hemax64 mode_NE (Babs x) y)) = true).
  { clear. intros [s|s| |s m e p] y H; try discriminate H. destruct y; reflexivity. }
  apply G. exact QR.
Qed.
End Cold.

(** ** A case *)
(** A pow that gives NaN for every negative base; the base otherwise. *)
Definition strict_pow (x y : b64) : b64 := if Bltb x (b64_ofZ 0) then B754_nan else x.
Definition keep (x : b64) : b64 := x.
Definition strict : Libm := mkLibm strict_pow keep keep keep keep keep keep keep keep keep.

Lemma strict_c : c_pow strict.
Proof.
  intros x y X Y L _. cbn [lm_pow strict]. unfold strict_pow. destruct (ofZ_value 0%Z ltac:(lia)) as (F0 & V0).
  rewrite Bltb_correct by assumption. rewrite V0, Rlt_bool_true by exact L. reflexivity.
Qed.
