(** Texts of doubles read again. *)
From Coq Require Import ZArith Reals Bool List Ascii Lia Lra.
From Flocq Require Import Core IEEE754.BinarySingleNaN.
From Verif Require Import Num ModelHelper ModelText SpecText ProofText ProofTextRead ProofTextWrite.
Import ListNotations.
Open Scope Z_scope.

Local Notation fexp := (FLT_exp (-1074) 53).

#[local] Instance prec53 : Prec_gt_0 53. Proof. reflexivity. Qed.

Lemma B2R_format : forall x : b64, generic_format radix2 fexp (B2R x).
Proof. intros x. exact (generic_format_B2R 53 1024 x). Qed.

Lemma ten_16 : (powerRZ 10 (-16) < bpow radix2 (-53))%R.
Proof.
  rewrite <- (pow10_R (-16)). change (Z.max (-16) 0) with 0. change (Z.max (- -16) 0) with 16.
  change (bpow radix2 (-53)) with (/ IZR (2 ^ 53))%R. cbn [Z.pow]. change (IZR 1) with 1%R. unfold Rdiv. rewrite Rmult_1_l.
  apply Rinv_lt_contravar; [apply Rmult_lt_0_compat; apply IZR_lt; reflexivity|apply IZR_lt; reflexivity].
Qed.

(** a half unit of the 17th digit of [x] *)
Lemma near_pos : forall x v d p, generic_format radix2 fexp x -> (0 < x)%R -> 17 <= p ->
  (powerRZ 10 d <= x)%R -> (Rabs (v - x) <= powerRZ 10 (d + 1 - p) / 2)%R ->
  round radix2 fexp ZnearestE v = x.
Proof.
  intros x v d p Fx X P D H.
  assert (S : (Rabs (v - x) < x * bpow radix2 (-53) / 2)%R).
  { apply Rle_lt_trans with (1 := H). apply Rmult_lt_compat_r; [lra|].
    apply Rle_lt_trans with (powerRZ 10 (d + -16)).
    { apply power10_le. lia. }
    rewrite powerRZ_add by exact p10_nz. pose proof ten_16 as T.
    apply Rle_lt_trans with (x * powerRZ 10 (-16))%R.
    - apply Rmult_le_compat_r; [apply powerRZ_le; lra|exact D].
    - apply Rmult_lt_compat_l; assumption. }
  assert (X0 : x <> 0%R) by lra.
  pose proof (bpow_mag_gt radix2 x) as E. rewrite Rabs_pos_eq in E by lra.
  remember (mag radix2 x : Z) as e eqn:ME0. assert (ME : mag radix2 x = e :> Z) by (symmetry; exact ME0).
  assert (U : (bpow radix2 (e - 53) <= ulp radix2 fexp x)%R).
  { rewrite ulp_neq_0 by exact X0. unfold cexp. rewrite ME. apply bpow_le. unfold FLT_exp. lia. }
  assert (B53 : (0 < bpow radix2 (-53))%R) by apply bpow_gt_0.
  apply Rabs_def2 in S. destruct S as [S1 S2].
  assert (XU : (x * bpow radix2 (-53) < ulp radix2 fexp x)%R).
  { apply Rlt_le_trans with (bpow radix2 (e - 53)); [|exact U].
    unfold Zminus. rewrite bpow_plus. apply Rmult_lt_compat_r; [exact B53|exact E]. }
  apply Rle_antisym.
  - apply round_N_le_midp; [typeclasses eauto|exact Fx|]. rewrite succ_eq_pos by lra. lra.
  - apply round_N_ge_midp; [typeclasses eauto|exact Fx|]. rewrite pred_eq_pos by lra.
    unfold pred_pos. rewrite ME. destruct (Req_bool_spec x (bpow radix2 (e - 1))) as [Q|Q]; [|lra].
    assert (W : (x * bpow radix2 (-53) <= bpow radix2 (fexp (e - 1)))%R).
    { rewrite Q at 1. rewrite <- bpow_plus. apply bpow_le. unfold FLT_exp. lia. }
    lra.
Qed.

Lemma near_any : forall x v d p, generic_format radix2 fexp x -> 17 <= p ->
  (powerRZ 10 d <= Rabs x)%R -> (Rabs (v - x) <= powerRZ 10 (d + 1 - p) / 2)%R ->
  round radix2 fexp ZnearestE v = x.
Proof.
  intros x v d p Fx P D H. assert (T : (0 < powerRZ 10 d)%R) by (apply powerRZ_lt; lra).
  destruct (Rle_or_lt 0 x) as [X|X].
  - rewrite Rabs_pos_eq in D by exact X. apply (near_pos x v d p); (assumption || lra).
  - rewrite Rabs_left in D by exact X.
    assert (N : round radix2 fexp ZnearestE (- v) = (- x)%R).
    { apply (near_pos (- x) (- v) d p); [apply generic_format_opp; exact Fx|lra|exact P|exact D|].
      replace (- v - - x)%R with (- (v - x))%R by ring. rewrite Rabs_Ropp. exact H. }
    rewrite round_NE_opp in N. lra.
Qed.

(** 17 significant digits determine a double *)
Theorem text_trip : forall ns (x : b64) p, is_finite x = true -> 17 <= p ->
  exists v, numeral (DoubleToString ns x p false) v /\ round radix2 fexp ZnearestE v = B2R x.
Proof.
  intros ns x p Fx P. destruct (Req_dec (B2R x) 0) as [Z0|Z0].
  - exists 0%R. split; [apply text_zero; (assumption || lia)|]. rewrite Z0. apply round_0. typeclasses eauto.
  - destruct (decade_exists (Rabs (B2R x)) (Rabs_pos_lt _ Z0)) as [d D].
    destruct (text_general ns x p d Fx ltac:(lia) D) as [v [N [k [_ [A _]]]]].
    exists v. split; [exact N|]. replace (Z.max 1 p) with p in A by lia.
    apply (near_any _ v d p); [apply B2R_format|exact P|apply D|exact A].
Qed.

Lemma finite_below : forall x : b64, (Rabs (B2R x) <= IZR (2 ^ 1024 - 2 ^ 971))%R.
Proof.
  intros x. pose proof (abs_B2R_le_emax_minus_prec 53 1024 Hprec64 x) as H.
  change (bpow radix2 (1024 - 53)) with (bpow radix2 971) in H. rewrite !bpow_IZR in H by lia.
  rewrite minus_IZR. exact H.
Qed.

Lemma numeral_numeric : forall s v, numeral s v -> fits v -> IsNumeric s = true.
Proof.
  intros s v N L. apply numeric_exact. exists [], s, [], v. rewrite app_nil_r.
  repeat split; [constructor|constructor|exact N|exact L].
Qed.

Theorem text_numeric_fixed : forall ns (x : b64) p, is_finite x = true -> 0 <= p ->
  IsNumeric (DoubleToString ns x p true) = true.
Proof.
  intros ns x p Fx P. destruct (text_fixed ns x p Fx P) as [v [N [[k [_ [A _]]] _]]].
  apply (numeral_numeric _ v N). apply fits_limit.
  pose proof (finite_below x) as B. pose proof (power10_le (- p) 0 ltac:(lia)) as T.
  change (powerRZ 10 0) with 1%R in T.
  apply Rle_lt_trans with (IZR (2 ^ 1024 - 2 ^ 971) + 1)%R.
  - replace v with (B2R x + (v - B2R x))%R by ring. apply Rle_trans with (1 := Rabs_triang _ _). lra.
  - rewrite <- plus_IZR. apply IZR_lt. vm_compute. reflexivity.
Qed.

Theorem text_numeric_17 : forall ns (x : b64) p, is_finite x = true -> 17 <= p ->
  IsNumeric (DoubleToString ns x p false) = true.
Proof.
  intros ns x p Fx P. destruct (text_trip ns x p Fx P) as [v [N E]].
  apply (numeral_numeric _ v N). unfold fits. rewrite E.
  pose proof (finite_below x) as B. apply Rle_lt_trans with (1 := B). rewrite bpow_IZR by lia.
  apply IZR_lt. vm_compute. reflexivity.
Qed.

Theorem text_not_numeric : forall ns (x : b64) p f, is_finite x = false ->
  IsNumeric (DoubleToString ns x p f) = false.
Proof.
  intros ns [s|s| |s m e H] p f Fx; try discriminate Fx; cbn [DoubleToString].
  - destruct s; vm_compute; reflexivity.
  - destruct ns; vm_compute; reflexivity.
Qed.

(** the largest double *)
Definition largest : b64 := binary_normalize 53 1024 Hprec64 Hemax64 mode_NE (2 ^ 53 - 1) 971 false.

Lemma largest_text : forall ns, is_finite largest = true /\ IsNumeric (DoubleToString ns largest 5 false) = false.
Proof. intros []; split; [vm_cast_no_check (eq_refl true)|vm_cast_no_check (eq_refl false)|vm_cast_no_check (eq_refl true)|vm_cast_no_check (eq_refl false)]. Qed.

Lemma pow10_IZR : forall n, 0 <= n -> powerRZ 10 n = IZR (10 ^ n).
Proof. intros n H. rewrite <- (Z2Nat.id n H). symmetry. apply pow10_nat. Qed.

(** six digits, as the messages of the elongation models have *)
Theorem text_numeric_6 : forall ns (x : b64), is_finite x = true ->
  IsNumeric (DoubleToString ns x 6 false) = true.
Proof.
  intros ns x Fx. destruct (Req_dec (B2R x) 0) as [Z0|Z0].
  - apply (numeral_numeric _ 0%R); [apply text_zero; (assumption || lia)|]. apply fits_limit.
    rewrite Rabs_R0. apply IZR_lt. vm_compute. reflexivity.
  - destruct (decade_exists (Rabs (B2R x)) (Rabs_pos_lt _ Z0)) as [d D].
    destruct (text_general ns x 6 d Fx ltac:(lia) D) as [v [N [k [K [A _]]]]].
    apply (numeral_numeric _ v N). apply fits_limit. change (Z.max 1 6) with 6 in *.
    replace (d + 1 - 6) with (d - 5) in * by lia.
    pose proof (finite_below x) as B.
    assert (V : (Rabs v <= Rabs (B2R x) + powerRZ 10 (d - 5) / 2)%R).
    { replace v with (B2R x + (v - B2R x))%R by ring. apply Rle_trans with (1 := Rabs_triang _ _). lra. }
    assert (d < 309).
    { destruct (Z_lt_le_dec d 309) as [L|L]; [exact L|exfalso]. apply power10_le in L. rewrite (pow10_IZR 309) in L by lia.
      assert (IZR (2 ^ 1024 - 2 ^ 971) < IZR (10 ^ 309))%R by (apply IZR_lt; vm_compute; reflexivity). lra. }
    destruct (Z_lt_le_dec d 308) as [L|L].
    + apply Rle_lt_trans with (powerRZ 10 308 + powerRZ 10 302)%R.
      * pose proof (power10_le (d + 1) 308 ltac:(lia)). pose proof (power10_le (d - 5) 302 ltac:(lia)).
        assert (0 < powerRZ 10 (d - 5))%R by (apply powerRZ_lt; lra). lra.
      * rewrite !pow10_IZR, <- plus_IZR by lia. apply IZR_lt. vm_compute. reflexivity.
    + assert (d = 308) by lia. subst d. change (308 - 5) with 303 in *.
      rewrite K, Rabs_mult, <- abs_IZR, (Rabs_pos_eq (powerRZ 10 303)) in V by (apply powerRZ_le; lra).
      rewrite K, Rabs_mult, <- abs_IZR, (Rabs_pos_eq (powerRZ 10 303)) by (apply powerRZ_le; lra).
      rewrite (pow10_IZR 303) in * by lia.
      assert (W : (IZR (2 * (Z.abs k * 10 ^ 303)) <= IZR (2 * (2 ^ 1024 - 2 ^ 971) + 10 ^ 303))%R).
      { rewrite plus_IZR, !(mult_IZR 2), mult_IZR. lra. }
      apply le_IZR in W. rewrite <- mult_IZR. apply IZR_lt.
      assert (Kb : Z.abs k < 179770).
      { destruct (Z_lt_le_dec (Z.abs k) 179770) as [Q|Q]; [exact Q|exfalso].
        apply (Z.mul_le_mono_nonneg_r _ _ (10 ^ 303)) in Q; [|vm_compute; discriminate].
        assert (C : 2 * (2 ^ 1024 - 2 ^ 971) + 10 ^ 303 < 2 * (179770 * 10 ^ 303)) by (vm_compute; reflexivity).
        revert Q W C. generalize (2 * (2 ^ 1024 - 2 ^ 971) + 10 ^ 303), (10 ^ 303). intros. lia. }
      apply Z.le_lt_trans with (179769 * 10 ^ 303).
      * apply Z.mul_le_mono_nonneg_r; [vm_compute; discriminate|lia].
      * vm_compute. reflexivity.
Qed.

(** 1 + 2^-52 with 15 digits is 1 *)
Definition above_one : b64 := binary_normalize 53 1024 Hprec64 Hemax64 mode_NE (2 ^ 52 + 1) (-52) false.
Definition one64 : b64 := binary_normalize 53 1024 Hprec64 Hemax64 mode_NE 1 0 false.

Theorem text_numeric : forall ns (x : b64) precision is_fixed, 0 <= precision ->
  is_fixed = true \/ 17 <= precision \/ precision = 6 ->
  IsNumeric (DoubleToString ns x precision is_fixed) = is_finite x.
Proof.
  intros ns x p f P H. destruct (is_finite x) eqn:Fx; [|apply text_not_numeric; exact Fx].
  destruct f; [apply text_numeric_fixed; assumption|].
  destruct H as [H|[H|H]]; [discriminate H|apply text_numeric_17; assumption|].
  subst p. apply text_numeric_6. exact Fx.
Qed.
