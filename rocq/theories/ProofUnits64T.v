(** Proofs about the temperature conversions in double precision. *)
From Coq Require Import ZArith Bool List Reals Lra Lia Psatz.
From Flocq Require Import Core.Core Relative IEEE754.BinarySingleNaN.
From Verif Require Import Num NumFacts ModelBase ProofReal ProofSearch SpecUnits SpecUnits64 ProofUnits ProofDouble ProofUnits64.
Open Scope R_scope.

Section Temperature64.
Variable lm : Libm.
Hypothesis pow : accurate_pow lm.
Notation D := (B64 lm).

(** A double with a bounded value and a bounded error. *)
Definition within (x : b64) (r d : R) : Prop := is_finite x = true /\ Rabs (B2R x - r) <= d.

Lemma rnd_big : forall x, Rabs x <= 100000000 -> Rabs (rnd64 x) < bpow radix2 1024.
Proof.
  intros x H. apply Rle_lt_trans with (bpow radix2 30); [|apply bpow_lt; lia].
  apply abs_round_le_generic; [apply valid64|apply valid_rnd_round_mode|apply format_bpow; lia|].
  apply Rle_trans with (1 := H). cbn. lra.
Qed.

Lemma within_add : forall x y r s d e, within x r d -> within y s e -> d <= 1 -> e <= 1 -> Rabs r <= 10000000 -> Rabs s <= 1000 ->
  within (fadd (n := D) x y) (r + s) (d + e + U * (Rabs (r + s) + d + e) + tiny).
Proof.
  intros x y r s d e (Hx & X) (Hy & Y) Hd He Hr Hs. cbn [fadd B64].
  generalize (Bplus_correct 53 1024 Hprec64 Hemax64 mode_NE x y Hx Hy). fold (rnd64 (B2R x + B2R y)).
  assert (A : Rabs (B2R x + B2R y - (r + s)) <= d + e).
  { replace (B2R x + B2R y - (r + s)) with ((B2R x - r) + (B2R y - s)) by ring. apply Rle_trans with (1 := Rabs_triang _ _). lra. }
  assert (B : Rabs (B2R x + B2R y) <= Rabs (r + s) + (d + e)).
  { replace (B2R x + B2R y) with ((r + s) + (B2R x + B2R y - (r + s))) by ring. apply Rle_trans with (1 := Rabs_triang _ _). lra. }
  assert (C := Rabs_triang r s).
  rewrite Rlt_bool_true by (apply rnd_big; lra). intros (V & W & _). split; [exact W|]. rewrite V.
  replace (rnd64 (B2R x + B2R y) - (r + s)) with ((rnd64 (B2R x + B2R y) - (B2R x + B2R y)) + (B2R x + B2R y - (r + s))) by ring.
  apply Rle_trans with (1 := Rabs_triang _ _). assert (G := rnd64_err (B2R x + B2R y)).
  assert (U * Rabs (B2R x + B2R y) <= U * (Rabs (r + s) + (d + e))) by (apply Rmult_le_compat_l; [generalize U_pos; lra|exact B]).
  lra.
Qed.

Lemma within_near : forall n x r, (n <= 100)%nat -> near n x r -> within x r (INR (S n) * U * Rabs r).
Proof.
  intros n x r H (A & m & B & C). split; [exact A|]. rewrite C. replace (r * m - r) with ((m - 1) * r) by ring.
  rewrite Rabs_mult. apply Rmult_le_compat_r; [apply Rabs_pos|]. apply rel_bound; assumption.
Qed.

(** Conversion by the factor 1.8 or its inverse. *)
Lemma within_convert : forall x r d f g, within x r d -> d <= 1 -> Rabs r <= 10000000 -> factor f g -> g <= 2 ->
  within (Convert (N := D) x f (fofZ (N := D) 1) true) (r * g) (g * d + 16 * U * g * (Rabs r + d) + tiny).
Proof.
  intros x r d f g (Hx & X) Hd Hr Ff G. assert (P := pow_near lm pow f g 1 Ff ltac:(lia)). rewrite powerRZ_1 in P.
  destruct Ff as (_ & _ & Pg). destruct (within_near 13 _ _ ltac:(lia) P) as (Hp & Q). rewrite (Rabs_pos_eq g) in Q by lra.
  set (p := fpow (n := D) f (fofZ (N := D) 1)) in *.
  assert (J : INR 14 = 14) by (rewrite INR_IZR_INZ; reflexivity). rewrite J in Q. clear J.
  unfold Convert. fold p. cbn [fmul B64].
  generalize (Bmult_correct 53 1024 Hprec64 Hemax64 mode_NE x p). fold (rnd64 (B2R x * B2R p)).
  assert (B : Rabs (B2R x) <= Rabs r + d).
  { replace (B2R x) with (r + (B2R x - r)) by ring. apply Rle_trans with (1 := Rabs_triang _ _). lra. }
  assert (D0 : 0 <= d) by (apply Rle_trans with (2 := X); apply Rabs_pos).
  assert (PB : Rabs (B2R p) <= g + 14 * U * g).
  { replace (B2R p) with (g + (B2R p - g)) by ring. apply Rle_trans with (1 := Rabs_triang _ _). rewrite (Rabs_pos_eq g) by lra. lra. }
  assert (XP : Rabs (B2R x * B2R p) <= (Rabs r + d) * (g + 14 * U * g)).
  { rewrite Rabs_mult. apply Rmult_le_compat; auto using Rabs_pos. }
  generalize U_pos. intros UU.
  assert (UG : 0 <= U * g <= U * 2) by (split; [apply Rmult_le_pos; lra|apply Rmult_le_compat_l; lra]).
  assert (A : Rabs (B2R x * B2R p - r * g) <= g * d + (Rabs r + d) * (14 * U * g)).
  { replace (B2R x * B2R p - r * g) with ((B2R x - r) * g + B2R x * (B2R p - g)) by ring.
    apply Rle_trans with (1 := Rabs_triang _ _). rewrite !Rabs_mult, (Rabs_pos_eq g) by lra.
    apply Rplus_le_compat; [rewrite (Rmult_comm g); apply Rmult_le_compat_r; lra|]. apply Rmult_le_compat; auto using Rabs_pos. }
  set (z := Rabs r + d) in *. assert (Z0 : 0 <= z <= 10000001) by (unfold z; generalize (Rabs_pos r); lra).
  assert (ZG : z * (g + 14 * U * g) <= 10000001 * 3) by (apply Rmult_le_compat; [lra|lra|lra|lra]).
  rewrite Rlt_bool_true by (apply rnd_big; lra). rewrite Hx, Hp. intros (V & W & _). split; [exact W|]. rewrite V.
  replace (rnd64 (B2R x * B2R p) - r * g) with ((rnd64 (B2R x * B2R p) - B2R x * B2R p) + (B2R x * B2R p - r * g)) by ring.
  apply Rle_trans with (1 := Rabs_triang _ _). assert (E := rnd64_err (B2R x * B2R p)).
  assert (U * Rabs (B2R x * B2R p) <= U * (z * (g + 14 * U * g))) by (apply Rmult_le_compat_l; [lra|exact XP]).
  assert (U * (z * (g + 14 * U * g)) <= 2 * U * g * z).
  { replace (U * (z * (g + 14 * U * g))) with (U * g * z * (1 + 14 * U)) by ring.
    replace (2 * U * g * z) with (U * g * z * 2) by ring. apply Rmult_le_compat_l; [|lra]. apply Rmult_le_pos; lra. }
  lra.
Qed.

Lemma within_self : forall v, reading v -> within v (B2R v) 0 /\ Rabs (B2R v) <= 1000000.
Proof. intros v (A & B). split; [|exact B]. split; [exact A|]. rewrite Rminus_diag_eq by reflexivity. rewrite Rabs_R0. lra. Qed.

Lemma within_int : forall z, (Z.abs z <= 2 ^ 53)%Z -> within (fofZ (N := D) z) (IZR z) 0.
Proof.
  intros z H. destruct (near_int lm z H) as (A & m & B & C). split; [exact A|]. unfold rel in B. cbn in B. rewrite Rinv_1 in B.
  replace m with 1 in C by lra. rewrite C. replace (IZR z * 1 - IZR z) with 0 by ring. rewrite Rabs_R0. lra.
Qed.

Lemma near_opp : forall m k, (0 < m <= 2 ^ 53)%Z -> (0 < k <= 15)%Z ->
  near 1 (flit (n := D) (- m) (- k)) (- (IZR m / IZR (10 ^ k))).
Proof.
  intros m k Hm Hk. cbn [flit B64]. unfold b64_lit. destruct k as [|p|p]; [lia| |lia]. cbn [Z.opp].
  assert (T : (1 <= 10 ^ Z.pos p <= 10 ^ 15)%Z).
  { split; [apply Z.le_trans with (10 ^ 0)%Z; [reflexivity|]|]; apply Z.pow_le_mono_r; lia. }
  assert ((10 ^ 15 <= 2 ^ 53)%Z) by (vm_compute; discriminate).
  change 1%nat with (S (0 + 0)).
  replace (- (IZR m / IZR (10 ^ Z.pos p))) with (IZR (- m) / IZR (10 ^ Z.pos p)) by (rewrite opp_IZR; unfold Rdiv; ring).
  eapply (near_div 0 0 60); [lia|lia|apply near_ofZ; lia|apply near_ofZ; lia|apply not_0_IZR; lia|].
  rewrite opp_IZR. unfold mid, Rdiv. rewrite <- Ropp_mult_distr_l, Rabs_Ropp. apply (mid_rat m (10 ^ Z.pos p) 60); lia.
Qed.

Lemma shift_273 : within (kTemperatureShiftCelsiusToKelvin (N := D)) (27315 / 100) (600 * U).
Proof.
  assert (N : near 1 (kTemperatureShiftCelsiusToKelvin (N := D)) (IZR 27315 / IZR (10 ^ 2))) by (apply (near_lit lm 27315 2); lia).
  destruct (within_near 1 _ _ ltac:(lia) N) as (A & B). split; [exact A|].
  apply Rle_trans with (1 := B). rewrite Rabs_pos_eq by (cbn; lra). cbn. unfold half_ulp. lra.
Qed.
Lemma shift_273m : within (kTemperatureShiftKelvinToCelsius (N := D)) (- (27315 / 100)) (600 * U).
Proof.
  assert (N : near 1 (kTemperatureShiftKelvinToCelsius (N := D)) (- (IZR 27315 / IZR (10 ^ 2)))) by (apply (near_opp 27315 2); lia).
  destruct (within_near 1 _ _ ltac:(lia) N) as (A & B). split; [exact A|].
  apply Rle_trans with (1 := B). rewrite Rabs_Ropp, Rabs_pos_eq by (cbn; lra). cbn. unfold half_ulp. lra.
Qed.
Lemma shift_459 : within (kTemperatureShiftFahrenheitToRankine (N := D)) (45967 / 100) (1000 * U).
Proof.
  assert (N : near 1 (kTemperatureShiftFahrenheitToRankine (N := D)) (IZR 45967 / IZR (10 ^ 2))) by (apply (near_lit lm 45967 2); lia).
  destruct (within_near 1 _ _ ltac:(lia) N) as (A & B). split; [exact A|].
  apply Rle_trans with (1 := B). rewrite Rabs_pos_eq by (cbn; lra). cbn. unfold half_ulp. lra.
Qed.
Lemma shift_459m : within (kTemperatureShiftRankineToFahrenheit (N := D)) (- (45967 / 100)) (1000 * U).
Proof.
  assert (N : near 1 (kTemperatureShiftRankineToFahrenheit (N := D)) (- (IZR 45967 / IZR (10 ^ 2)))) by (apply (near_opp 45967 2); lia).
  destruct (within_near 1 _ _ ltac:(lia) N) as (A & B). split; [exact A|].
  apply Rle_trans with (1 := B). rewrite Rabs_Ropp, Rabs_pos_eq by (cbn; lra). cbn. unfold half_ulp. lra.
Qed.

Lemma shift_32 : within (kTemperatureShiftCelsiusToFahrenheit (N := D)) 32 0.
Proof. exact (within_int 32 ltac:(lia)). Qed.
Lemma shift_32m : within (kTemperatureShiftFahrenheitToCelsius (N := D)) (-32) 0.
Proof. exact (within_int (-32) ltac:(lia)). Qed.

Lemma factor_18 : factor (kTemperatureKelvinToRankine (N := D)) (9 / 5).
Proof.
  assert (H : factor (kTemperatureKelvinToRankine (N := D)) (IZR 18 / IZR (10 ^ 1))) by (apply (factor_lit lm 18 1); lia).
  replace (9 / 5) with (IZR 18 / IZR (10 ^ 1)) by (cbn; lra). exact H.
Qed.
Lemma factor_18i : factor (kTemperatureRankineToKelvin (N := D)) (5 / 9).
Proof.
  assert (H : factor (kTemperatureRankineToKelvin (N := D)) (1 / (IZR 18 / IZR (10 ^ 1)))) by (apply (factor_lit_inv lm 18 1); lia).
  replace (5 / 9) with (1 / (IZR 18 / IZR (10 ^ 1))) by (cbn; lra). exact H.
Qed.

Lemma add_bound : forall x y r s d e, within x r d -> within y s e -> d <= 1 -> e <= 1 -> Rabs r <= 10000000 -> Rabs s <= 1000 ->
  within (fadd (n := D) x y) (r + s) (d + e + U * (Rabs r + Rabs s + 2) + tiny).
Proof.
  intros x y r s d e A B Hd He Hr Hs. destruct (within_add x y r s d e A B Hd He Hr Hs) as (X & Y). split; [exact X|].
  apply Rle_trans with (1 := Y). assert (C := Rabs_triang r s).
  assert (U * (Rabs (r + s) + d + e) <= U * (Rabs r + Rabs s + 2)) by (apply Rmult_le_compat_l; [generalize U_pos; lra|lra]). lra.
Qed.

Lemma convert_bound : forall x r d f g, within x r d -> d <= 1 -> Rabs r <= 10000000 -> factor f g -> g <= 2 ->
  within (Convert (N := D) x f (fofZ (N := D) 1) true) (r * g) (g * d + 16 * U * g * (Rabs r + 1) + tiny).
Proof.
  intros x r d f g A Hd Hr Ff G. destruct (within_convert x r d f g A Hd Hr Ff G) as (X & Y). split; [exact X|].
  apply Rle_trans with (1 := Y). destruct Ff as (_ & _ & P).
  assert (16 * U * g * (Rabs r + d) <= 16 * U * g * (Rabs r + 1)).
  { apply Rmult_le_compat_l; [|lra]. apply Rmult_le_pos; [generalize U_pos; lra|lra]. }
  lra.
Qed.

Lemma temperature_within : forall v t f g, temperature_scales t = Some (f, g) -> reading v ->
  is_finite (ConvertTemperature (N := D) v t 1 true) = true /\
  Rabs (g (B2R (ConvertTemperature (N := D) v t 1 true)) - f (B2R v)) <= bpow radix2 (-48) * (Rabs (B2R v) + 500).
Proof.
  intros v t f g H V. destruct (within_self v V) as (W & B). assert (P := Rabs_pos (B2R v)).
  assert (E : bpow radix2 (-48) = 32 * U) by (unfold half_ulp; cbn; lra). rewrite E. generalize U_pos. intros UU.
  assert (TT : 0 < tiny < U) by (unfold tiny, half_ulp; lra).
  assert (UV : 0 <= U * Rabs (B2R v) <= 1 / 1000000) by (unfold half_ulp; lra).
  assert (A32 : Rabs 32 = 32) by (apply Rabs_pos_eq; lra).
  assert (A32m : Rabs (-32) = 32) by (rewrite Rabs_left; lra).
  assert (A273 : Rabs (27315 / 100) = 27315 / 100) by (apply Rabs_pos_eq; lra).
  assert (A273m : Rabs (- (27315 / 100)) = 27315 / 100) by (rewrite Rabs_Ropp; exact A273).
  assert (A459 : Rabs (45967 / 100) = 45967 / 100) by (apply Rabs_pos_eq; lra).
  assert (A459m : Rabs (- (45967 / 100)) = 45967 / 100) by (rewrite Rabs_Ropp; exact A459).
  assert (A18 : Rabs (B2R v * (9 / 5)) = Rabs (B2R v) * (9 / 5)) by (rewrite Rabs_mult, (Rabs_pos_eq (9 / 5)) by lra; reflexivity).
  destruct t; cbn in H; try discriminate; injection H as <- <-; unfold ConvertTemperature, kelvin_of_celsius, kelvin_of_fahrenheit, kelvin_of_rankine.
  - assert (C := convert_bound _ _ _ _ _ W ltac:(lra) ltac:(lra) factor_18 ltac:(lra)).
    destruct (add_bound _ _ _ _ _ _ C shift_32 ltac:(lra) ltac:(lra) ltac:(lra) ltac:(lra)) as (X & Y).
    split; [exact X|]. rewrite A18, A32 in Y. apply Rabs_le_inv in Y. apply Rabs_le. split; lra.
  - destruct (add_bound _ _ _ _ _ _ W shift_273 ltac:(lra) ltac:(lra) ltac:(lra) ltac:(lra)) as (X & Y).
    split; [exact X|]. rewrite A273 in Y. apply Rabs_le_inv in Y. apply Rabs_le. split; lra.
  - assert (C := add_bound _ _ _ _ _ _ W shift_32m ltac:(lra) ltac:(lra) ltac:(lra) ltac:(lra)).
    assert (T := Rabs_triang (B2R v) (-32)). rewrite A32m in *.
    destruct (convert_bound _ _ _ _ _ C ltac:(lra) ltac:(lra) factor_18i ltac:(lra)) as (X & Y).
    split; [exact X|].
    assert (U * Rabs (B2R v + -32) <= U * (Rabs (B2R v) + 32)) by (apply Rmult_le_compat_l; lra).
    apply Rabs_le_inv in Y. apply Rabs_le. split; lra.
  - destruct (add_bound _ _ _ _ _ _ W shift_459 ltac:(lra) ltac:(lra) ltac:(lra) ltac:(lra)) as (X & Y).
    split; [exact X|]. rewrite A459 in Y. apply Rabs_le_inv in Y. apply Rabs_le. split; lra.
  - destruct (add_bound _ _ _ _ _ _ W shift_273m ltac:(lra) ltac:(lra) ltac:(lra) ltac:(lra)) as (X & Y).
    split; [exact X|]. rewrite A273m in Y. apply Rabs_le_inv in Y. apply Rabs_le. split; lra.
  - destruct (convert_bound _ _ _ _ _ W ltac:(lra) ltac:(lra) factor_18 ltac:(lra)) as (X & Y).
    split; [exact X|]. apply Rabs_le_inv in Y. apply Rabs_le. split; lra.
  - destruct (add_bound _ _ _ _ _ _ W shift_459m ltac:(lra) ltac:(lra) ltac:(lra) ltac:(lra)) as (X & Y).
    split; [exact X|]. rewrite A459m in Y. apply Rabs_le_inv in Y. apply Rabs_le. split; lra.
  - destruct (convert_bound _ _ _ _ _ W ltac:(lra) ltac:(lra) factor_18i ltac:(lra)) as (X & Y).
    split; [exact X|]. apply Rabs_le_inv in Y. apply Rabs_le. split; lra.
Qed.

(** Readings of the same temperature on opposite scales. *)
Lemma temperature_back : forall v t t', temperature_opposite t t' -> is_finite v = true -> Rabs (B2R v) <= 400000 ->
  is_finite (ConvertTemperature (N := D) (ConvertTemperature (N := D) v t 1 true) t' 1 true) = true /\
  Rabs (B2R (ConvertTemperature (N := D) (ConvertTemperature (N := D) v t 1 true) t' 1 true) - B2R v) <= bpow radix2 (-45) * (Rabs (B2R v) + 500).
Proof.
  intros v t t' O V B. assert (P := Rabs_pos (B2R v)).
  destruct (temperature_scales t) as [[f g]|] eqn:S; [|destruct O; discriminate].
  assert (S' : temperature_scales t' = Some (g, f)) by (destruct O; cbn in *; congruence).
  destruct (temperature_within v t f g S ltac:(split; [exact V|lra])) as (X & Y).
  set (w := ConvertTemperature (N := D) v t 1 true) in *.
  assert (E : bpow radix2 (-45) = 8 * bpow radix2 (-48)) by (cbn; lra). rewrite E.
  assert (Q : 0 < bpow radix2 (-48) < 1 / 100000000) by (cbn; lra). set (q := bpow radix2 (-48)) in *.
  assert (QV : 0 <= q * Rabs (B2R v) <= 1 / 100) by (split; [apply Rmult_le_pos; lra|apply Rle_trans with (1 / 100000000 * 500000); [apply Rmult_le_compat; lra|lra]]).
  assert (W : Rabs (B2R w) <= 2 * Rabs (B2R v) + 500).
  { apply Rabs_le_inv in Y. assert (L := Rabs_le_inv _ _ (Rle_refl (Rabs (B2R v)))). apply Rabs_le.
    destruct t; cbn in S; try discriminate; injection S as <- <-; unfold kelvin_of_celsius, kelvin_of_fahrenheit, kelvin_of_rankine in Y; split; lra. }
  destruct (temperature_within w t' g f S' ltac:(split; [exact X|lra])) as (X' & Y'). split; [exact X'|]. fold q in Y'.
  set (z := ConvertTemperature (N := D) w t' 1 true) in *. clearbody z. clear X X'.
  assert (q * Rabs (B2R w) <= q * (2 * Rabs (B2R v) + 500)) by (apply Rmult_le_compat_l; lra).
  apply Rabs_le_inv in Y, Y'. apply Rabs_le.
  destruct t; cbn in S; try discriminate; injection S as <- <-; unfold kelvin_of_celsius, kelvin_of_fahrenheit, kelvin_of_rankine in *; cbv beta in *; split; lra.
Qed.
End Temperature64.
