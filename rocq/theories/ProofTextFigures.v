(** DoubleToString writes not more significant figures than asked for. *)
From Coq Require Import ZArith Reals Bool List Ascii Lia Lra.
From Flocq Require Import Core IEEE754.BinarySingleNaN.
From Verif Require Import Num ModelHelper ModelText SpecText ProofText ProofTextRead ProofTextWrite.
Import ListNotations.
Open Scope Z_scope.

Lemma isd_counted : forall c, isd c = true -> ise c = false /\ existsb (Ascii.eqb c) ten = true.
Proof. intros c. destruct c as [[] [] [] [] [] [] [] []]; vm_compute; intros H; split; (reflexivity || discriminate H). Qed.

Lemma md_app : forall s r, forallb isd s = true -> mantissa_digits (s ++ r) = s ++ mantissa_digits r.
Proof.
  induction s as [|c s IH]; intros r H; [reflexivity|]. cbn in H. apply andb_prop in H. destruct H as [A B].
  destruct (isd_counted c A) as [C D]. unfold ise in C. cbn [app mantissa_digits]. rewrite C, D, IH by exact B. reflexivity.
Qed.

Lemma md_sign : forall b r, mantissa_digits (sign_text b ++ r) = mantissa_digits r.
Proof. intros [] r; reflexivity. Qed.

Lemma md_fraction : forall d n r, 0 <= n -> mantissa_digits (fraction_text d n ++ r) =
  strip (last_digits (Z.to_nat d) n) ++ mantissa_digits r.
Proof.
  intros d n r H. unfold fraction_text. destruct (last_digits_ok (Z.to_nat d) n H) as [A _].
  destruct (strip_ok (last_digits (Z.to_nat d) n)) as [j J]. rewrite J, forallb_app in A.
  apply andb_prop in A. destruct A as [A _]. destruct (strip (last_digits (Z.to_nat d) n)) as [|c s]; [reflexivity|].
  rewrite <- md_app by exact A. reflexivity.
Qed.

Lemma wz_prefix : forall a b, (length (without_zeros a) <= length (without_zeros (a ++ b)))%nat.
Proof.
  induction a as [|c a IH]; intros b; [cbn; lia|]. cbn [app without_zeros].
  destruct (Ascii.eqb c "0"); [apply IH|]. cbn [length]. rewrite app_length. lia.
Qed.

Lemma val_pos : forall c, isd c = true -> Ascii.eqb c "0" = false -> 1 <= val c.
Proof.
  intros c. destruct c as [[] [] [] [] [] [] [] []]; vm_compute; intros A B; (discriminate A || discriminate B || intros C; discriminate C).
Qed.

Lemma wz_total : forall s p, forallb isd s = true -> 0 <= p -> total s < 10 ^ p ->
  Z.of_nat (length (without_zeros s)) <= p.
Proof.
  induction s as [|c s IH]; intros p A P T; [cbn; lia|]. cbn [without_zeros].
  cbn in A. apply andb_prop in A. destruct A as [A B].
  destruct (Ascii.eqb c "0") eqn:E.
  - apply Ascii.eqb_eq in E. subst c. rewrite total_cons0 in T. apply IH; assumption.
  - pose proof (val_pos c A E) as V. pose proof (total_nonneg s) as W.
    change (c :: s) with ([c] ++ s) in T. rewrite total_app in T.
    change (total [c]) with (10 * 0 + val c) in T.
    assert (L : 10 ^ Z.of_nat (length s) < 10 ^ p).
    { assert (0 < 10 ^ Z.of_nat (length s)) by (apply Z.pow_pos_nonneg; lia). nia. }
    apply Z.pow_lt_mono_r_iff in L; [|lia|lia]. cbn [length]. lia.
Qed.

Lemma figures_parts : forall sg q d p r, 0 <= q -> 0 <= d -> 0 <= p -> q < 10 ^ p -> mantissa_digits r = [] ->
  Z.of_nat (figures (sign_text sg ++ integer_text (q / 10 ^ d) ++ fraction_text d (q mod 10 ^ d) ++ r)) <= p.
Proof.
  intros sg q d p r Q D P L M. unfold figures. assert (T : 0 < 10 ^ d) by (apply Z.pow_pos_nonneg; lia).
  assert (Qd : 0 <= q / 10 ^ d) by (apply Z.div_pos; lia). pose proof (Z.mod_pos_bound q (10 ^ d) T) as MB.
  destruct (integer_text_ok _ Qd) as [I0 _].
  rewrite md_sign, md_app, md_fraction, M, app_nil_r by (exact I0 || lia).
  set (s := last_digits (Z.to_nat d) (q mod 10 ^ d)). destruct (strip_ok s) as [j J].
  assert (W := wz_prefix (integer_text (q / 10 ^ d) ++ strip s) (repeat "0"%char j)).
  rewrite <- app_assoc, <- J in W.
  assert (X : Z.of_nat (length (without_zeros (integer_text (q / 10 ^ d) ++ s))) <= p).
  { apply wz_total; [|exact P|unfold s; rewrite split_total by assumption; exact L].
    rewrite forallb_app, I0. apply last_digits_ok. lia. }
  lia.
Qed.

Lemma scaled_below : forall num den p x, 1 <= p -> 0 < num -> 0 < den ->
  (powerRZ 10 x <= IZR num / IZR den < powerRZ 10 (x + 1))%R -> scaled num den (p - 1 - x) <= 10 ^ p.
Proof.
  intros num den p x P A B X.
  destruct (scaled_ok num den (p - 1 - x) ltac:(lia) B) as [S0 [k [K [H _]]]].
  set (q := scaled num den (p - 1 - x)) in *. set (u := powerRZ 10 (- (p - 1 - x))) in *.
  assert (U : (0 < u)%R) by (apply powerRZ_lt; lra).
  assert (W : (powerRZ 10 (x + 1) = IZR (10 ^ p) * u)%R).
  { rewrite <- (Z2Nat.id p) at 1 by lia. rewrite pow10_nat, Z2Nat.id by lia. unfold u.
    rewrite <- powerRZ_add by exact p10_nz. f_equal. lia. }
  rewrite W in X. apply Z.lt_succ_r. apply lt_IZR. rewrite succ_IZR.
  apply Rmult_lt_reg_r with (1 := U). rewrite Rmult_plus_distr_r.
  pose proof (Rle_abs (IZR q * u - IZR num / IZR den)%R). lra.
Qed.

Lemma figures_general : forall sg p num den, 0 <= p -> 0 <= num -> 0 < den ->
  Z.of_nat (figures (sign_text sg ++ general_text p num den)) <= Z.max 1 p.
Proof.
  intros sg p num den P A B. unfold general_text.
  replace (if p =? 0 then 1 else p) with (Z.max 1 p) by (destruct (Z.eqb_spec p 0); lia).
  set (pp := Z.max 1 p). assert (PP : 1 <= pp) by (unfold pp; lia).
  assert (T : 10 ^ (pp - 1) < 10 ^ pp) by (apply Z.pow_lt_mono_r; lia).
  assert (T0 : 0 < 10 ^ (pp - 1)) by (apply Z.pow_pos_nonneg; lia).
  assert (G : 0 <= fst (significant pp num den) < 10 ^ pp).
  { unfold significant. destruct (Z.eqb_spec num 0) as [Z0|Z0]; [cbn [fst]; lia|].
    assert (Np : 0 < num) by lia. pose proof (scaled_below num den pp _ PP Np B (decade_ok num den Np B)) as S1.
    destruct (scaled_ok num den (pp - 1 - decade num den) A B) as [S0 _].
    destruct (Z.eqb_spec (scaled num den (pp - 1 - decade num den)) (10 ^ pp)); cbn [fst]; lia. }
  destruct (significant pp num den) as [q x]. cbn [fst] in G.
  destruct (Z.leb_spec (-4) x) as [Y|Y]; [destruct (Z.ltb_spec x pp) as [Y'|Y']|]; cbn [andb].
  - rewrite <- (app_nil_r (fraction_text (pp - 1 - x) (q mod 10 ^ (pp - 1 - x)))).
    apply figures_parts; (lia || reflexivity).
  - apply figures_parts; (lia || reflexivity).
  - apply figures_parts; (lia || reflexivity).
Qed.

Theorem text_figures : forall ns (x : b64) p, is_finite x = true -> 0 <= p ->
  Z.of_nat (figures (DoubleToString ns x p false)) <= Z.max 1 p.
Proof.
  intros ns x p Fx P. unfold DoubleToString. rewrite neg_prec by exact P. unfold unsigned_text.
  destruct x as [s|s| |s m e H]; try discriminate Fx.
  - apply figures_general; lia.
  - pose proof (num_pos m e). pose proof (den_pos e). unfold num_of, den_of in *. apply figures_general; lia.
Qed.
