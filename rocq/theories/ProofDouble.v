(** Relative errors of double precision operations. *)
From Coq Require Import ZArith Bool List Lia Reals Lra.
From Flocq Require Import Core.Core Relative IEEE754.BinarySingleNaN.
From Verif Require Import Num NumFacts ProofSearch.
Open Scope R_scope.

(** ** Products of rounding errors *)
Notation U := half_ulp.
Definition rel (n : nat) (m : R) : Prop := (1 - U) ^ n <= m <= / (1 - U) ^ n.

Lemma U_pos : 0 < U < 1 / 1000000.
Proof. unfold half_ulp. lra. Qed.
Lemma low_pos : forall n, 0 < (1 - U) ^ n.
Proof. intros n. apply pow_lt. generalize U_pos. lra. Qed.

Lemma rel_pos : forall n m, rel n m -> 0 < m.
Proof. intros n m [A _]. generalize (low_pos n). lra. Qed.

Lemma rel_0 : rel 0 1.
Proof. unfold rel. cbn. lra. Qed.

Lemma rel_mul : forall a b m n, rel a m -> rel b n -> rel (a + b) (m * n).
Proof.
  intros a b m n [A B] [C D]. assert (P := low_pos a). assert (Q := low_pos b). unfold rel. rewrite pow_add, Rinv_mult. split.
  - apply Rmult_le_compat; lra.
  - apply Rmult_le_compat; lra.
Qed.

Lemma rel_inv : forall a m, rel a m -> rel a (/ m).
Proof.
  intros a m [A B]. assert (P := low_pos a). split.
  - rewrite <- (Rinv_inv ((1 - U) ^ a)). apply Rinv_le; [lra|exact B].
  - apply Rinv_le; assumption.
Qed.

Lemma rel_pow : forall a m k, rel a m -> rel (k * a) (m ^ k).
Proof.
  intros a m k H. induction k as [|k IH]; [apply rel_0|]. cbn [Nat.mul pow]. apply rel_mul; assumption.
Qed.

Lemma rel_powerRZ : forall a m z, rel a m -> rel (Z.abs_nat z * a) (powerRZ m z).
Proof.
  intros a m [|p|p] H; cbn [powerRZ].
  - exact rel_0.
  - change (Z.abs_nat (Z.pos p)) with (Pos.to_nat p). apply rel_pow, H.
  - change (Z.abs_nat (Z.neg p)) with (Pos.to_nat p). apply rel_inv, rel_pow, H.
Qed.

Lemma rel_more : forall a b m, (a <= b)%nat -> rel a m -> rel b m.
Proof.
  intros a b m H [A B]. assert (P := low_pos b). assert (Q : (1 - U) ^ b <= (1 - U) ^ a).
  { replace b with (a + (b - a))%nat by lia. rewrite pow_add. rewrite <- (Rmult_1_r ((1 - U) ^ a)) at 2.
    apply Rmult_le_compat_l; [left; apply low_pos|].
    apply Rle_trans with (1 ^ (b - a)); [apply pow_incr; generalize U_pos; lra|rewrite pow1; lra]. }
  split; [lra|]. apply Rle_trans with (1 := B). apply Rinv_le; lra.
Qed.

Lemma low_bound : forall n, 1 - INR n * U <= (1 - U) ^ n.
Proof.
  induction n as [|n IH]; [cbn; lra|]. rewrite S_INR. cbn [pow]. generalize U_pos, (pos_INR n). intros.
  apply Rle_trans with ((1 - U) * (1 - INR n * U)); [nra|]. apply Rmult_le_compat_l; lra.
Qed.

Lemma rel_bound : forall n m, (n <= 100)%nat -> rel n m -> Rabs (m - 1) <= INR (S n) * U.
Proof.
  intros n m H [A B]. assert (L := low_bound n). assert (J : 0 <= INR n <= 100).
  { split; [apply pos_INR|]. replace 100 with (INR 100) by (rewrite INR_IZR_INZ; reflexivity). apply le_INR, H. }
  rewrite S_INR. generalize U_pos. intros V. apply Rabs_le. split; [nra|].
  apply Rle_trans with (/ (1 - INR n * U) - 1).
  - assert (/ (1 - U) ^ n <= / (1 - INR n * U)) by (apply Rinv_le; [nra|exact L]). lra.
  - apply Rplus_le_reg_r with 1. replace (/ (1 - INR n * U) - 1 + 1) with (/ (1 - INR n * U)) by ring.
    apply Rmult_le_reg_l with (1 - INR n * U); [nra|]. rewrite Rinv_r by nra.
    assert (INR n * U <= 100 * U) by (apply Rmult_le_compat_r; lra). assert (0 <= INR n * U) by (apply Rmult_le_pos; lra).
    assert (INR n * U * ((INR n + 1) * U) <= 1 * U).
    { replace (INR n * U * ((INR n + 1) * U)) with ((INR n * U * (INR n + 1)) * U) by ring.
      apply Rmult_le_compat_r; [lra|]. apply Rle_trans with (100 * U * 101); [|unfold half_ulp; lra].
      apply Rmult_le_compat; lra. }
    nra.
Qed.

Lemma rel_1 : forall m, Rabs (m - 1) <= U -> rel 1 m.
Proof.
  intros m H. apply Rabs_le_inv in H. unfold rel, half_ulp in *. cbn [pow]. rewrite Rmult_1_r. split; [lra|].
  apply Rle_trans with (1 + / 9007199254740992); [lra|]. lra.
Qed.

Lemma rel_5 : forall m, Rabs (m - 1) <= 4 * U -> rel 5 m.
Proof.
  intros m H. apply Rabs_le_inv in H. unfold rel, half_ulp in *. cbn [pow]. rewrite Rmult_1_r. split; [lra|].
  apply Rle_trans with (1 + 4 * / 9007199254740992); [lra|]. lra.
Qed.

(** ** Magnitudes *)
Definition mid (k : Z) (r : R) : Prop := bpow radix2 (- k) <= Rabs r <= bpow radix2 k.

Lemma mid_nz : forall k r, mid k r -> r <> 0.
Proof. intros k r [A _] ->. rewrite Rabs_R0 in A. generalize (bpow_gt_0 radix2 (- k)). lra. Qed.

Lemma mid_more : forall k l r, (k <= l)%Z -> mid k r -> mid l r.
Proof.
  intros k l r H [A B]. split.
  - apply Rle_trans with (2 := A). apply bpow_le. lia.
  - apply Rle_trans with (1 := B). apply bpow_le. lia.
Qed.

Lemma mid_mul : forall k l r s, mid k r -> mid l s -> mid (k + l) (r * s).
Proof.
  intros k l r s [A B] [C D]. unfold mid. rewrite Rabs_mult. replace (- (k + l))%Z with (- k + - l)%Z by ring.
  rewrite !bpow_plus. split; apply Rmult_le_compat; auto using bpow_ge_0, Rabs_pos.
Qed.

Lemma mid_inv : forall k r, mid k r -> mid k (/ r).
Proof.
  intros k r H. assert (Z := mid_nz k r H). destruct H as [A B]. unfold mid. rewrite Rabs_inv. split.
  - rewrite bpow_opp. apply Rinv_le; [apply Rabs_pos_lt, Z|exact B].
  - rewrite <- (Z.opp_involutive k) at 1. rewrite bpow_opp. apply Rinv_le; [apply bpow_gt_0|exact A].
Qed.

Lemma mid_pow : forall k r n, mid k r -> mid (Z.of_nat n * k) (r ^ n).
Proof.
  intros k r n H. induction n as [|n IH].
  - cbn. unfold mid. rewrite Rabs_R1. cbn. lra.
  - replace (Z.of_nat (S n) * k)%Z with (k + Z.of_nat n * k)%Z by lia. cbn [pow]. apply mid_mul; assumption.
Qed.

Lemma mid_powerRZ : forall k r z, mid k r -> mid (Z.abs z * k) (powerRZ r z).
Proof.
  intros k r [|p|p] H; cbn [powerRZ Z.abs].
  - unfold mid. rewrite Rabs_R1. cbn. lra.
  - rewrite <- positive_nat_Z. apply mid_pow, H.
  - apply mid_inv. rewrite <- positive_nat_Z. apply mid_pow, H.
Qed.

Lemma mid_rel : forall n m, (n <= 100)%nat -> rel n m -> mid 1 m.
Proof.
  intros n m H P. assert (Q := rel_bound n m H P). assert (J : INR (S n) <= 101).
  { replace 101 with (INR 101) by (rewrite INR_IZR_INZ; reflexivity). apply le_INR. lia. }
  assert (INR (S n) * U <= 101 * U) by (apply Rmult_le_compat_r; [generalize U_pos; lra|exact J]).
  assert (101 * U < 1 / 4) by (unfold half_ulp; lra). apply Rabs_le_inv in Q.
  unfold mid. rewrite Rabs_pos_eq by lra. cbn. lra.
Qed.

(** ** Operations *)
Definition near (n : nat) (x : b64) (r : R) : Prop :=
  is_finite x = true /\ exists m, rel n m /\ B2R x = r * m.

Lemma near_more : forall a b x r, (a <= b)%nat -> near a x r -> near b x r.
Proof. intros a b x r H (A & m & B & C). split; [exact A|]. exists m. split; [exact (rel_more a b m H B)|exact C]. Qed.

Lemma near_self : forall x : b64, is_finite x = true -> near 0 x (B2R x).
Proof. intros x H. split; [exact H|]. exists 1. split; [exact rel_0|]. ring. Qed.

Lemma near_mid : forall n k x r, (n <= 100)%nat -> near n x r -> mid k r -> mid (k + 1) (B2R x).
Proof. intros n k x r H (_ & m & A & ->) B. apply mid_mul; [exact B|]. exact (mid_rel n m H A). Qed.

Lemma rnd_rel : forall x, mid 1020 x -> Rabs (rnd64 x) < bpow radix2 1024 /\ exists m, rel 1 m /\ rnd64 x = x * m.
Proof.
  intros x [A B]. split.
  - apply Rle_lt_trans with (bpow radix2 1020); [|apply bpow_lt; lia].
    apply abs_round_le_generic; [apply valid64|apply valid_rnd_round_mode|apply format_bpow; lia|exact B].
  - destruct (relative_error_N_FLT_ex radix2 (-1074) 53 Hprec64 (fun z => negb (Z.even z)) x) as (e & E & F).
    + apply Rle_trans with (2 := A). apply bpow_le. lia.
    + exists (1 + e). split; [|exact F]. apply rel_1. replace (1 + e - 1) with e by ring.
      apply Rle_trans with (1 := E). unfold half_ulp. cbn. lra.
Qed.

Lemma near_mul : forall a b k x y r s, (a + b <= 90)%nat -> (k <= 1000)%Z -> near a x r -> near b y s -> (r = 0 \/ mid k (r * s)) ->
  near (S (a + b)) (@Bmult 53 1024 Hprec64 Hemax64 mode_NE x y) (r * s).
Proof.
  intros a b k x y r s L K (Hx & m & M & X) (Hy & n & M' & Y) H.
  generalize (Bmult_correct 53 1024 Hprec64 Hemax64 mode_NE x y). fold (rnd64 (B2R x * B2R y)).
  assert (E : B2R x * B2R y = r * s * (m * n)) by (rewrite X, Y; ring). rewrite E, Hx, Hy.
  assert (MN := rel_mul a b m n M M').
  destruct H as [-> | H].
  - replace (0 * s * (m * n)) with 0 by ring. unfold rnd64. rewrite round_0 by apply valid_rnd_round_mode. rewrite Rabs_R0.
    rewrite Rlt_bool_true by apply bpow_gt_0. intros (V & W & _). split; [exact W|]. exists 1. split.
    + apply (rel_more 0); [lia|exact rel_0].
    + rewrite V. ring.
  - assert (Q : mid 1020 (r * s * (m * n))).
    { apply mid_more with (k + 1)%Z; [lia|]. apply mid_mul; [exact H|]. apply (mid_rel (a + b)); [lia|exact MN]. }
    destruct (rnd_rel _ Q) as (S1 & e & E1 & V1). rewrite Rlt_bool_true by exact S1. intros (V & W & _).
    split; [exact W|]. exists (m * n * e). split; [|rewrite V, V1; ring].
    replace (S (a + b)) with ((a + b) + 1)%nat by lia. apply rel_mul; assumption.
Qed.

Lemma near_div : forall a b k x y r s, (a + b <= 90)%nat -> (k <= 1000)%Z -> near a x r -> near b y s -> s <> 0 -> mid k (r / s) ->
  near (S (a + b)) (@Bdiv 53 1024 Hprec64 Hemax64 mode_NE x y) (r / s).
Proof.
  intros a b k x y r s L K (Hx & m & M & X) (Hy & n & M' & Y) Z H.
  generalize (Bdiv_correct 53 1024 Hprec64 Hemax64 mode_NE x y). fold (rnd64 (B2R x / B2R y)).
  assert (P := rel_pos b n M'). 
  assert (E : B2R x / B2R y = r / s * (m * / n)) by (rewrite X, Y; field; split; [lra|exact Z]). rewrite E, Hx.
  assert (MN := rel_mul a b m (/ n) M (rel_inv b n M')).
  assert (Q : mid 1020 (r / s * (m * / n))).
  { apply mid_more with (k + 1)%Z; [lia|]. apply mid_mul; [exact H|]. apply (mid_rel (a + b)); [lia|exact MN]. }
  destruct (rnd_rel _ Q) as (S1 & e & E1 & V1). rewrite Rlt_bool_true by exact S1.
  intros G. destruct G as (V & W & _). { rewrite Y. intros G. apply Rmult_integral in G. destruct G; [auto|lra]. }
  split; [exact W|]. exists (m * / n * e). split; [|rewrite V, V1; ring].
  replace (S (a + b)) with ((a + b) + 1)%nat by lia. apply rel_mul; assumption.
Qed.

(** ** Literals *)
Lemma ofZ_exact : forall z, (Z.abs z <= 2 ^ 53)%Z -> is_finite (b64_ofZ z) = true /\ B2R (b64_ofZ z) = IZR z.
Proof.
  intros z H. unfold b64_ofZ. generalize (binary_normalize_correct 53 1024 Hprec64 Hemax64 mode_NE z 0 false).
  assert (E : F2R (Float radix2 z 0) = IZR z) by (unfold F2R; cbn; ring). cbn zeta. rewrite E.
  rewrite round_generic; [|apply valid_rnd_round_mode|].
  - rewrite Rlt_bool_true; [intros (A & B & _); split; assumption|]. rewrite <- abs_IZR.
    apply Rle_lt_trans with (IZR (2 ^ 53)); [apply IZR_le, H|]. change 2%Z with (radix_val radix2). rewrite IZR_Zpower by lia. apply bpow_lt. lia.
  - apply (generic_format_FLT radix2 (-1074) 53). destruct (Z.eq_dec (Z.abs z) (2 ^ 53)) as [Q|Q].
    + exists (Float radix2 (Z.sgn z) 53); cbn [Fnum Fexp]; [|destruct z; cbn; lia|lia].
      unfold F2R. cbn [Fnum Fexp]. rewrite <- IZR_Zpower by lia. rewrite <- mult_IZR. f_equal.
      change (radix2 ^ 53)%Z with (2 ^ 53)%Z. rewrite <- Q. clear. destruct z; reflexivity.
    + exists (Float radix2 z 0); cbn [Fnum Fexp]; [symmetry; exact E|change (radix2 ^ 53)%Z with (2 ^ 53)%Z; lia|lia].
Qed.

Lemma near_ofZ : forall z, (Z.abs z <= 2 ^ 53)%Z -> near 0 (b64_ofZ z) (IZR z).
Proof. intros z H. destruct (ofZ_exact z H) as (A & B). rewrite <- B. apply near_self, A. Qed.
