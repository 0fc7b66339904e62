(** DoubleToString writes numerals next to the value. *)
From Coq Require Import ZArith Reals Bool List Ascii Lia Lra.
From Flocq Require Import Core IEEE754.BinarySingleNaN.
From Verif Require Import Num ModelHelper ModelText SpecText ProofText ProofTextRead.
Import ListNotations.
Open Scope Z_scope.

(** ** Digits *)

Lemma digit_char_ok : forall d, 0 <= d < 10 -> isd (digit_char d) = true /\ val (digit_char d) = d.
Proof.
  intros d H. assert (C : d = 0 \/ d = 1 \/ d = 2 \/ d = 3 \/ d = 4 \/ d = 5 \/ d = 6 \/ d = 7 \/ d = 8 \/ d = 9) by lia.
  repeat (destruct C as [-> | C]; [split; reflexivity|]). subst d. split; reflexivity.
Qed.

Lemma last_digits_ok : forall k n, 0 <= n -> forallb isd (last_digits k n) = true /\
  List.length (last_digits k n) = k /\ total (last_digits k n) = n mod 10 ^ Z.of_nat k.
Proof.
  induction k as [|k IH]; intros n H.
  - cbn [last_digits]. split; [reflexivity|]. split; [reflexivity|]. cbn. now rewrite Z.mod_1_r.
  - cbn [last_digits]. assert (Q : 0 <= n / 10) by (apply Z.div_pos; lia).
    destruct (IH (n / 10) Q) as [A [B C]].
    pose proof (Z.mod_pos_bound n 10 ltac:(lia)) as M. destruct (digit_char_ok (n mod 10) M) as [D1 D2].
    rewrite forallb_app, app_length, total_snoc, A, B, C, D2. cbn [forallb]. rewrite D1.
    split; [reflexivity|]. split; [cbn; lia|].
    rewrite Nat2Z.inj_succ, Z.pow_succ_r by lia.
    rewrite Z.rem_mul_r by (try apply Z.pow_nonzero; lia). lia.
Qed.

Lemma count_digits_ok : forall fuel n, 0 <= n -> n < 2 ^ (Z.of_nat fuel + 1) ->
  n < 10 ^ Z.of_nat (count_digits fuel n) /\ (0 < n -> 10 ^ (Z.of_nat (count_digits fuel n) - 1) <= n) /\
  (1 <= count_digits fuel n)%nat.
Proof.
  induction fuel as [|fuel IH]; intros n H L.
  - cbn in *. repeat split; lia.
  - cbn [count_digits]. destruct (Z.ltb_spec n 10) as [S0|S0].
    + cbn. repeat split; lia.
    + assert (Q : 0 <= n / 10) by (apply Z.div_pos; lia).
      rewrite Nat2Z.inj_succ in L. unfold Z.succ in L. rewrite (Z.pow_add_r 2 (Z.of_nat fuel + 1) 1) in L by lia.
      assert (L' : n / 10 < 2 ^ (Z.of_nat fuel + 1)).
      { apply Z.div_lt_upper_bound; [lia|]. assert (0 <= 2 ^ (Z.of_nat fuel + 1)) by (apply Z.pow_nonneg; lia).
        change (2 ^ 1) with 2 in L. lia. }
      destruct (IH (n / 10) Q L') as [A [B C]]. set (c := count_digits fuel (n / 10)) in *.
      pose proof (Z.div_mod n 10 ltac:(lia)) as DM. pose proof (Z.mod_pos_bound n 10 ltac:(lia)) as MB.
      rewrite Nat2Z.inj_succ. repeat split.
      * rewrite Z.pow_succ_r by lia. lia.
      * intros _. assert (P : 0 < n / 10) by (apply Z.div_str_pos; lia). specialize (B P).
        replace (Z.succ (Z.of_nat c) - 1) with (Z.succ (Z.of_nat c - 1)) by lia.
        rewrite Z.pow_succ_r by lia. lia.
      * lia.
Qed.

Lemma digits_of_ok : forall n, 0 <= n -> n < 10 ^ Z.of_nat (digits_of n) /\
  (0 < n -> 10 ^ (Z.of_nat (digits_of n) - 1) <= n) /\ (1 <= digits_of n)%nat.
Proof.
  intros n H. unfold digits_of. apply count_digits_ok; [exact H|].
  rewrite Z2Nat.id by apply Z.log2_nonneg.
  destruct (Z.eq_dec n 0) as [->|Z0]; [reflexivity|]. apply Z.log2_spec. lia.
Qed.

Lemma integer_text_ok : forall n, 0 <= n -> forallb isd (integer_text n) = true /\
  integer_text n <> [] /\ total (integer_text n) = n.
Proof.
  intros n H. unfold integer_text. destruct (digits_of_ok n H) as [A [B C]].
  destruct (last_digits_ok (digits_of n) n H) as [D [E G]]. split; [exact D|]. split.
  - intros Q. rewrite Q in E. cbn in E. lia.
  - rewrite G. apply Z.mod_small. split; [exact H|exact A].
Qed.

Lemma strip_ok : forall s, exists j, s = strip s ++ repeat "0"%char j.
Proof.
  induction s as [|c s [j E]]; [exists O; reflexivity|]. cbn.
  destruct (strip s) as [|d r] eqn:Q.
  - destruct (Ascii.eqb c "0") eqn:C.
    + apply Ascii.eqb_eq in C. subst c. exists (S j). cbn in *. now rewrite E at 1.
    + exists j. cbn in *. now rewrite E at 1.
  - exists j. cbn [app]. f_equal. exact E.
Qed.

Lemma total_repeat : forall j, total (repeat "0"%char j) = 0.
Proof. induction j; [reflexivity|]. cbn [repeat]. rewrite total_cons0. exact IHj. Qed.

Lemma pow10_nat : forall j, IZR (10 ^ Z.of_nat j) = powerRZ 10 (Z.of_nat j).
Proof. intros j. rewrite <- pow_powerRZ, pow_IZR. reflexivity. Qed.

Lemma p10_nz : (10 <> 0)%R. Proof. lra. Qed.

(** integer digits [i], decimals [f], of which zeros at the end may be missing *)
Lemma numeral_parts : forall sg k i f j ex x, sign sg k -> forallb isd i = true -> i <> [] ->
  forallb isd (f ++ repeat "0"%char j) = true -> exponent ex x ->
  numeral (sg ++ i ++ (match f with [] => [] | _ => point :: f end) ++ ex)
    (IZR k * IZR (total (i ++ f ++ repeat "0"%char j)) *
     powerRZ 10 (x - Z.of_nat (List.length (f ++ repeat "0"%char j)))).
Proof.
  intros sg k i f j ex x A B C D X.
  rewrite forallb_app in D. apply andb_prop in D. destruct D as [D1 D2].
  rewrite (app_assoc i f), (total_app (i ++ f)), total_repeat, Z.add_0_r, app_length, repeat_length.
  replace (IZR k * IZR (total (i ++ f) * 10 ^ Z.of_nat j) * powerRZ 10 (x - Z.of_nat (List.length f + j)))%R
    with (IZR k * IZR (total (i ++ f)) * powerRZ 10 (x - Z.of_nat (List.length f)))%R.
  2: { rewrite mult_IZR, pow10_nat.
       replace (x - Z.of_nat (List.length f)) with (Z.of_nat j + (x - Z.of_nat (List.length f + j))) by lia.
       rewrite powerRZ_add by exact p10_nz. ring. }
  assert (G : digits (i ++ f) (total (i ++ f))).
  { apply total_digits. rewrite forallb_app, B, D1. reflexivity. }
  assert (N : i ++ f <> []). { destruct i; [elim C; reflexivity|discriminate]. }
  destruct f as [|c f].
  - apply (numeral_of sg k i [] [] _ ex x A G N); [left; split; reflexivity|exact X].
  - change ((point :: c :: f) ++ ex) with ([point] ++ (c :: f) ++ ex).
    apply (numeral_of sg k i ["."%char] (c :: f) _ ex x A G N); [right; reflexivity|exact X].
Qed.

Lemma split_total : forall q d, 0 <= q -> 0 <= d ->
  total (integer_text (q / 10 ^ d) ++ last_digits (Z.to_nat d) (q mod 10 ^ d)) = q.
Proof.
  intros q d H D. assert (P : 0 < 10 ^ d) by (apply Z.pow_pos_nonneg; lia).
  assert (Q : 0 <= q / 10 ^ d) by (apply Z.div_pos; lia).
  destruct (integer_text_ok _ Q) as [_ [_ I1]].
  pose proof (Z.mod_pos_bound q (10 ^ d) P) as MB.
  destruct (last_digits_ok (Z.to_nat d) (q mod 10 ^ d) (proj1 MB)) as [_ [I2 I3]].
  rewrite total_app, I1, I2, I3, Z2Nat.id by exact D. rewrite Z.mod_mod by lia.
  pose proof (Z.div_mod q (10 ^ d)). lia.
Qed.

Lemma numeral_stripped : forall sg k q d ex x, sign sg k -> 0 <= q -> 0 <= d -> exponent ex x ->
  numeral (sg ++ (integer_text (q / 10 ^ d) ++ fraction_text d (q mod 10 ^ d)) ++ ex)
    (IZR k * IZR q * powerRZ 10 (x - d)).
Proof.
  intros sg k q d ex x A H D X. assert (P : 0 < 10 ^ d) by (apply Z.pow_pos_nonneg; lia).
  assert (Q : 0 <= q / 10 ^ d) by (apply Z.div_pos; lia).
  destruct (integer_text_ok _ Q) as [I0 [I1 _]].
  pose proof (Z.mod_pos_bound q (10 ^ d) P) as MB.
  destruct (last_digits_ok (Z.to_nat d) (q mod 10 ^ d) (proj1 MB)) as [L0 [L1 _]].
  pose proof (split_total q d H D) as T. unfold fraction_text.
  set (s := last_digits (Z.to_nat d) (q mod 10 ^ d)) in *. destruct (strip_ok s) as [j J].
  rewrite J in T, L0, L1.
  pose proof (numeral_parts sg k _ (strip s) j ex x A I0 I1 L0 X) as N.
  rewrite T, L1, Z2Nat.id in N by exact D. rewrite <- app_assoc.
  destruct (strip s); exact N.
Qed.

Lemma numeral_fixed : forall sg k q p, sign sg k -> 0 <= q -> 0 <= p ->
  numeral (sg ++ fixed_text p q) (IZR k * IZR q * powerRZ 10 (- p)) /\
  decimals (fixed_text p q) = Z.to_nat p.
Proof.
  intros sg k q p A H D. assert (P : 0 < 10 ^ p) by (apply Z.pow_pos_nonneg; lia).
  assert (Q : 0 <= q / 10 ^ p) by (apply Z.div_pos; lia).
  destruct (integer_text_ok _ Q) as [I0 [I1 _]].
  pose proof (Z.mod_pos_bound q (10 ^ p) P) as MB.
  destruct (last_digits_ok (Z.to_nat p) (q mod 10 ^ p) (proj1 MB)) as [L0 [L1 _]].
  pose proof (split_total q p H D) as T. unfold fixed_text.
  set (s := last_digits (Z.to_nat p) (q mod 10 ^ p)) in *.
  assert (Dc : forall i r, forallb isd i = true -> decimals (i ++ r) = decimals r).
  { induction i as [|c i IH]; intros r B; [reflexivity|]. cbn in B. apply andb_prop in B. destruct B as [B1 B2].
    cbn [app decimals]. destruct (Ascii.eqb c ".") eqn:Ec; [|apply IH; exact B2].
    apply Ascii.eqb_eq in Ec. subst c. discriminate B1. }
  split.
  - assert (L0' : forallb isd (s ++ repeat "0"%char 0) = true) by (cbn [repeat]; rewrite app_nil_r; exact L0).
    pose proof (numeral_parts sg k _ s 0 [] 0 A I0 I1 L0' exponent_none) as N.
    cbn [repeat] in N. rewrite !app_nil_r in N. rewrite T, L1, Z2Nat.id in N by exact D.
    destruct (Z.eqb_spec p 0) as [->|Z0].
    + exact N.
    + revert L1 N. generalize s. intros [|c s'] L1 N; [cbn in L1; lia|exact N].
  - rewrite Dc by exact I0. destruct (Z.eqb_spec p 0) as [->|Z0]; [reflexivity|].
    cbn [decimals]. change (Ascii.eqb "." ".") with true. cbv iota. exact L1.
Qed.

(** ** Rounding *)

Lemma nearest_even_ok : forall a b, 0 <= a -> 0 < b -> 0 <= nearest_even a b /\
  Z.abs (2 * (nearest_even a b * b - a)) <= b /\
  (Z.abs (2 * (nearest_even a b * b - a)) = b -> Z.even (nearest_even a b) = true).
Proof.
  intros a b A B. unfold nearest_even. assert (Q : 0 <= a / b) by (apply Z.div_pos; lia).
  pose proof (Z.div_mod a b ltac:(lia)) as DM. pose proof (Z.mod_pos_bound a b B) as MB.
  set (q := a / b) in *. set (r := a mod b) in *.
  destruct (Z.ltb_spec (2 * r) b); [repeat split; lia|].
  destruct (Z.ltb_spec b (2 * r)); [repeat split; lia|].
  destruct (Z.even q) eqn:E; [repeat split; try lia; intros; exact E|].
  repeat split; try lia. intros _. rewrite Z.even_add, E. reflexivity.
Qed.

Lemma pow10_pos : forall n, 0 <= n -> 0 < 10 ^ n.
Proof. intros. apply Z.pow_pos_nonneg; lia. Qed.

Lemma scaled_ok : forall num den x, 0 <= num -> 0 < den -> 0 <= scaled num den x /\
  rounded (powerRZ 10 (- x)) (IZR num / IZR den) (IZR (scaled num den x) * powerRZ 10 (- x)).
Proof.
  intros num den x A B. unfold scaled.
  set (a := num * 10 ^ Z.max x 0). set (b := den * 10 ^ Z.max (- x) 0).
  pose proof (pow10_pos (Z.max x 0) ltac:(lia)) as P1. pose proof (pow10_pos (Z.max (- x) 0) ltac:(lia)) as P2.
  assert (A' : 0 <= a) by (unfold a; apply Z.mul_nonneg_nonneg; lia).
  assert (B' : 0 < b) by (unfold b; apply Z.mul_pos_pos; lia).
  destruct (nearest_even_ok a b A' B') as [Q0 [Q1 Q2]]. set (q := nearest_even a b) in *.
  split; [exact Q0|]. exists q. split; [reflexivity|].
  assert (Rb : (0 < IZR b)%R) by (apply IZR_lt; exact B').
  assert (U : (0 < powerRZ 10 (- x))%R) by (apply powerRZ_lt; lra).
  assert (V : (IZR num / IZR den = IZR a / IZR b * powerRZ 10 (- x))%R).
  { rewrite <- pow10_R. unfold a, b. rewrite !mult_IZR. rewrite Z.opp_involutive.
    apply IZR_lt in P1, P2. assert (0 < IZR den)%R by (apply IZR_lt; exact B). field.
    repeat split; lra. }
  assert (E : (Rabs (IZR q * powerRZ 10 (- x) - IZR num / IZR den) =
               IZR (Z.abs (2 * (q * b - a))) / IZR b * (powerRZ 10 (- x) / 2))%R).
  { rewrite V. replace (IZR q * powerRZ 10 (- x) - IZR a / IZR b * powerRZ 10 (- x))%R
      with (IZR (2 * (q * b - a)) * (/ IZR b * (powerRZ 10 (- x) / 2)))%R
      by (rewrite mult_IZR, minus_IZR, mult_IZR; field; lra).
    rewrite Rabs_mult, <- abs_IZR.
    rewrite (Rabs_pos_eq (/ IZR b * _)); [unfold Rdiv; ring|].
    apply Rmult_le_pos; [left; apply Rinv_0_lt_compat; exact Rb|lra]. }
  rewrite E. set (z := Z.abs (2 * (q * b - a))) in *. split.
  - apply Rle_trans with (1 * (powerRZ 10 (- x) / 2))%R; [|lra].
    apply Rmult_le_compat_r; [lra|]. apply Rmult_le_reg_r with (1 := Rb).
    unfold Rdiv. rewrite Rmult_assoc, Rinv_l, Rmult_1_r, Rmult_1_l by lra. apply IZR_le. exact Q1.
  - intros H. apply Q2. apply eq_IZR.
    assert (W : (IZR z / IZR b = 1)%R).
    { apply Rmult_eq_reg_r with (powerRZ 10 (- x) / 2)%R; lra. }
    apply Rmult_eq_reg_r with (/ IZR b)%R; [|apply Rinv_neq_0_compat; lra]. rewrite Rinv_r by lra. exact W.
Qed.

(** [10^x <= num / den] as integers *)
Lemma decade_le : forall num den x, 0 < den ->
  (powerRZ 10 x <= IZR num / IZR den)%R <-> den * 10 ^ Z.max x 0 <= num * 10 ^ Z.max (- x) 0.
Proof.
  intros num den x D. rewrite <- pow10_R.
  pose proof (pow10_pos (Z.max x 0) ltac:(lia)) as P1. pose proof (pow10_pos (Z.max (- x) 0) ltac:(lia)) as P2.
  apply IZR_lt in P1, P2. assert (D' : (0 < IZR den)%R) by (apply IZR_lt; exact D).
  set (u := IZR (10 ^ Z.max x 0)) in *. set (w := IZR (10 ^ Z.max (- x) 0)) in *.
  assert (Q : (u / w <= IZR num / IZR den <-> IZR den * u <= IZR num * w)%R).
  { split; intros H.
    - apply (Rmult_le_compat_r (w * IZR den)) in H; [|apply Rmult_le_pos; lra].
      replace (u / w * (w * IZR den))%R with (IZR den * u)%R in H by (field; lra).
      replace (IZR num / IZR den * (w * IZR den))%R with (IZR num * w)%R in H by (field; lra). exact H.
    - apply Rmult_le_reg_r with (w * IZR den)%R; [apply Rmult_lt_0_compat; lra|].
      replace (u / w * (w * IZR den))%R with (IZR den * u)%R by (field; lra).
      replace (IZR num / IZR den * (w * IZR den))%R with (IZR num * w)%R by (field; lra). exact H. }
  rewrite Q. unfold u, w. rewrite <- !mult_IZR. split; [apply le_IZR|apply IZR_le].
Qed.

Lemma decade_ok : forall num den, 0 < num -> 0 < den ->
  (powerRZ 10 (decade num den) <= IZR num / IZR den < powerRZ 10 (decade num den + 1))%R.
Proof.
  intros num den A B. unfold decade.
  destruct (digits_of_ok num ltac:(lia)) as [N1 [N2 N3]]. destruct (digits_of_ok den ltac:(lia)) as [D1 [D2 D3]].
  specialize (N2 A). specialize (D2 B).
  set (a := Z.of_nat (digits_of num)) in *. set (b := Z.of_nat (digits_of den)) in *.
  assert (D' : (0 < IZR den)%R) by (apply IZR_lt; exact B).
  assert (PW : forall n, 0 <= n -> IZR (10 ^ n) = powerRZ 10 n).
  { intros n Hn. rewrite <- (Z2Nat.id n Hn). apply pow10_nat. }
  assert (a1 : 1 <= a) by (unfold a; lia). assert (b1 : 1 <= b) by (unfold b; lia).
  assert (Up : (IZR num / IZR den < powerRZ 10 (a - b + 1))%R).
  { apply Rmult_lt_reg_r with (1 := D'). unfold Rdiv. rewrite Rmult_assoc, Rinv_l, Rmult_1_r by lra.
    apply Rlt_le_trans with (powerRZ 10 a); [rewrite <- PW by lia; apply IZR_lt; exact N1|].
    replace a with (a - b + 1 + (b - 1)) at 1 by lia. rewrite powerRZ_add by exact p10_nz.
    apply Rmult_le_compat_l; [apply powerRZ_le; lra|]. rewrite <- PW by lia. apply IZR_le. exact D2. }
  assert (Dn : (powerRZ 10 (a - b - 1) <= IZR num / IZR den)%R).
  { apply Rmult_le_reg_r with (1 := D'). unfold Rdiv. rewrite Rmult_assoc, Rinv_l, Rmult_1_r by lra.
    apply Rle_trans with (powerRZ 10 (a - 1)); [|rewrite <- PW by lia; apply IZR_le; exact N2].
    replace (a - 1) with (a - b - 1 + b) by lia. rewrite (powerRZ_add 10 (a - b - 1)) by exact p10_nz.
    apply Rmult_le_compat_l; [apply powerRZ_le; lra|]. rewrite <- PW by lia. left. apply IZR_lt. exact D1. }
  destruct (Z.leb_spec (den * 10 ^ Z.max (a - b) 0) (num * 10 ^ Z.max (- (a - b)) 0)) as [H|H].
  - split; [apply decade_le; assumption|exact Up].
  - split; [exact Dn|]. replace (a - b - 1 + 1) with (a - b) by lia.
    apply Rnot_le_lt. intros K. apply decade_le in K; [lia|exact B].
Qed.

Lemma power10_lt : forall a b, a < b -> (powerRZ 10 a < powerRZ 10 b)%R.
Proof.
  intros a b H. replace b with (a + (b - a)) by lia. rewrite powerRZ_add by exact p10_nz.
  assert (P : (0 < powerRZ 10 a)%R) by (apply powerRZ_lt; lra).
  rewrite <- (Rmult_1_r (powerRZ 10 a)) at 1. apply Rmult_lt_compat_l; [exact P|].
  rewrite <- (Z2Nat.id (b - a)) by lia. rewrite <- pow_powerRZ.
  apply Rlt_pow_R1; [lra|lia].
Qed.

Lemma power10_le : forall a b, a <= b -> (powerRZ 10 a <= powerRZ 10 b)%R.
Proof. intros a b H. destruct (Z.eq_dec a b) as [->|]; [lra|]. left. apply power10_lt. lia. Qed.

Lemma decade_unique : forall v x y, (powerRZ 10 x <= v < powerRZ 10 (x + 1))%R ->
  (powerRZ 10 y <= v < powerRZ 10 (y + 1))%R -> x = y.
Proof.
  intros v x y [A B] [C D].
  assert (L : forall a b, (powerRZ 10 a < powerRZ 10 b)%R -> a < b).
  { intros a b H. destruct (Z_lt_le_dec a b) as [Hl|Hl]; [exact Hl|].
    apply power10_le in Hl. lra. }
  assert (x < y + 1) by (apply L; lra). assert (y < x + 1) by (apply L; lra). lia.
Qed.

Lemma significant_ok : forall p num den x, 1 <= p -> 0 < num -> 0 < den ->
  (powerRZ 10 x <= IZR num / IZR den < powerRZ 10 (x + 1))%R ->
  exists q y, significant p num den = (q, y) /\ 0 <= q /\
    (IZR q * powerRZ 10 (y - (p - 1)) = IZR (scaled num den (p - 1 - x)) * powerRZ 10 (x - (p - 1)))%R.
Proof.
  intros p num den x P A B X. unfold significant.
  destruct (Z.eqb_spec num 0); [lia|].
  rewrite (decade_unique _ _ _ (decade_ok num den A B) X).
  destruct (scaled_ok num den (p - 1 - x) ltac:(lia) B) as [S0 _].
  set (q := scaled num den (p - 1 - x)) in *.
  destruct (Z.eqb_spec q (10 ^ p)) as [E|E].
  - exists (10 ^ (p - 1)), (x + 1). split; [reflexivity|]. split; [apply Z.pow_nonneg; lia|].
    rewrite E. replace (x + 1 - (p - 1)) with (1 + (x - (p - 1))) by lia.
    rewrite powerRZ_add by exact p10_nz. replace (10 ^ p) with (10 * 10 ^ (p - 1))
      by (rewrite <- Z.pow_succ_r by lia; f_equal; lia).
    rewrite mult_IZR. change (powerRZ 10 1) with (10 * 1)%R. ring.
  - exists q, x. repeat split; [exact S0].
Qed.

Lemma exponent_text_ok : forall x, exponent (exponent_text x) x.
Proof.
  intros x. unfold exponent_text.
  set (s := if Z.abs x <? 10 then last_digits 2 (Z.abs x) else integer_text (Z.abs x)).
  assert (Q : forallb isd s = true /\ s <> [] /\ total s = Z.abs x).
  { unfold s. destruct (Z.ltb_spec (Z.abs x) 10) as [L|L].
    - destruct (last_digits_ok 2 (Z.abs x) ltac:(lia)) as [A [B C]]. split; [exact A|]. split.
      + intros E. rewrite E in B. discriminate B.
      + rewrite C. apply Z.mod_small. change (10 ^ Z.of_nat 2) with 100. lia.
    - apply integer_text_ok. lia. }
  destruct Q as [Q1 [Q2 Q3]].
  destruct (Z.ltb_spec x 0) as [L|L].
  - change (exponent ("e"%char :: ["-"%char] ++ s) x).
    replace x with (-1 * total s) by lia. constructor; [left; reflexivity|constructor|apply total_digits; exact Q1|exact Q2].
  - change (exponent ("e"%char :: ["+"%char] ++ s) x).
    replace x with (1 * total s) by lia. constructor; [left; reflexivity|constructor|apply total_digits; exact Q1|exact Q2].
Qed.

Lemma general_ok : forall sg k p num den x, sign sg k -> 0 <= p -> 0 < num -> 0 < den ->
  (powerRZ 10 x <= IZR num / IZR den < powerRZ 10 (x + 1))%R ->
  numeral (sg ++ general_text p num den)
    (IZR k * (IZR (scaled num den (Z.max 1 p - 1 - x)) * powerRZ 10 (x - (Z.max 1 p - 1)))).
Proof.
  intros sg k p num den x S0 P A B X. unfold general_text.
  replace (if p =? 0 then 1 else p) with (Z.max 1 p) by (destruct (Z.eqb_spec p 0); lia).
  set (pp := Z.max 1 p). assert (PP : 1 <= pp) by (unfold pp; lia).
  destruct (significant_ok pp num den x PP A B X) as [q [y [-> [Q V]]]]. rewrite <- V.
  destruct (Z.leb_spec (-4) y) as [Y|Y]; [destruct (Z.ltb_spec y pp) as [Y'|Y']|]; cbn [andb].
  - pose proof (numeral_stripped sg k q (pp - 1 - y) [] 0 S0 Q ltac:(lia) exponent_none) as N.
    rewrite app_nil_r in N. replace (y - (pp - 1)) with (0 - (pp - 1 - y)) by lia.
    rewrite <- Rmult_assoc. exact N.
  - pose proof (numeral_stripped sg k q (pp - 1) _ y S0 Q ltac:(lia) (exponent_text_ok y)) as N.
    rewrite <- Rmult_assoc. rewrite <- app_assoc in N. exact N.
  - pose proof (numeral_stripped sg k q (pp - 1) _ y S0 Q ltac:(lia) (exponent_text_ok y)) as N.
    rewrite <- Rmult_assoc. rewrite <- app_assoc in N. exact N.
Qed.

Lemma general_zero : forall sg k p den, sign sg k -> 0 <= p -> numeral (sg ++ general_text p 0 den) 0.
Proof.
  intros sg k p den S0 P. unfold general_text.
  replace (if p =? 0 then 1 else p) with (Z.max 1 p) by (destruct (Z.eqb_spec p 0); lia).
  unfold significant. change (0 =? 0) with true. cbv iota beta.
  change (-4 <=? 0) with true. destruct (Z.ltb_spec 0 (Z.max 1 p)); [|lia]. cbn [andb].
  pose proof (numeral_stripped sg k 0 (Z.max 1 p - 1 - 0) [] 0 S0 ltac:(lia) ltac:(lia) exponent_none) as N.
  rewrite app_nil_r in N. rewrite Rmult_0_r, Rmult_0_l in N. exact N.
Qed.

Lemma rounded_sign : forall s u x v, rounded u x v -> rounded u (IZR (sgn s) * x) (IZR (sgn s) * v).
Proof.
  intros s u x v [k [-> [A B]]]. exists (sgn s * k). rewrite mult_IZR.
  replace (IZR (sgn s) * (IZR k * u) - IZR (sgn s) * x)%R with (IZR (sgn s) * (IZR k * u - x))%R by ring.
  rewrite Rabs_sgn. split; [ring|]. split; [exact A|]. intros H. specialize (B H).
  rewrite Z.even_mul, B. apply orb_true_r.
Qed.

(** ** Doubles *)

Definition num_of (m : positive) (e : Z) : Z := Zpos m * 2 ^ Z.max e 0.
Definition den_of (e : Z) : Z := 2 ^ Z.max (- e) 0.

Lemma den_pos : forall e, 0 < den_of e.
Proof. intros. apply Z.pow_pos_nonneg; lia. Qed.

Lemma num_pos : forall m e, 0 < num_of m e.
Proof. intros. apply Z.mul_pos_pos; [lia|apply Z.pow_pos_nonneg; lia]. Qed.

Lemma B2R_parts : forall s m e H, B2R (B754_finite s m e H : b64) = (IZR (sgn s) * (IZR (num_of m e) / IZR (den_of e)))%R.
Proof.
  intros s m e H. cbn [B2R]. unfold F2R. cbn [Fnum Fexp].
  replace (IZR (cond_Zopp s (Zpos m))) with (IZR (sgn s) * IZR (Zpos m))%R
    by (rewrite <- mult_IZR; f_equal; destruct s; reflexivity).
  rewrite Rmult_assoc. f_equal. unfold num_of, den_of. rewrite mult_IZR.
  unfold Rdiv. rewrite Rmult_assoc. f_equal. rewrite <- !bpow_IZR by lia.
  rewrite <- bpow_opp, <- bpow_plus. f_equal. lia.
Qed.

Lemma sign_text_ok : forall s, sign (sign_text s) (sgn s).
Proof. intros []; constructor. Qed.

Lemma decimals_sign : forall s r, decimals (sign_text s ++ r) = decimals r.
Proof. intros [] r; reflexivity. Qed.

Lemma neg_prec : forall p, 0 <= p -> (if p <? 0 then 6 else p) = p.
Proof. intros p H. destruct (Z.ltb_spec p 0); lia. Qed.

Lemma text_fixed : forall ns (x : b64) p, is_finite x = true -> 0 <= p ->
  exists v, numeral (DoubleToString ns x p true) v /\ rounded (powerRZ 10 (- p)) (B2R x) v /\
    decimals (DoubleToString ns x p true) = Z.to_nat p.
Proof.
  intros ns x p Fx P. unfold DoubleToString. rewrite neg_prec by exact P. unfold unsigned_text.
  destruct x as [s|s| |s m e H]; try discriminate Fx.
  - destruct (scaled_ok 0 1 p ltac:(lia) ltac:(lia)) as [Q Rd].
    destruct (numeral_fixed _ _ _ p (sign_text_ok s) Q P) as [N D].
    eexists. split; [exact N|]. rewrite decimals_sign. split; [|exact D].
    rewrite Rmult_assoc. pose proof (rounded_sign s _ _ _ Rd) as W. cbn [B2R].
    replace (IZR (sgn s) * (0 / 1))%R with 0%R in W by (unfold Rdiv; ring). exact W.
  - fold (num_of m e) (den_of e).
    destruct (scaled_ok (num_of m e) (den_of e) p) as [Q Rd]; [pose proof (num_pos m e); lia|apply den_pos|].
    destruct (numeral_fixed _ _ _ p (sign_text_ok s) Q P) as [N D].
    eexists. split; [exact N|]. rewrite decimals_sign. split; [|exact D].
    rewrite Rmult_assoc. rewrite B2R_parts. apply rounded_sign. exact Rd.
Qed.

Lemma text_general : forall ns (x : b64) p d, is_finite x = true -> 0 <= p ->
  (powerRZ 10 d <= Rabs (B2R x) < powerRZ 10 (d + 1))%R ->
  exists v, numeral (DoubleToString ns x p false) v /\ rounded (powerRZ 10 (d + 1 - Z.max 1 p)) (B2R x) v.
Proof.
  intros ns x p d Fx P X. unfold DoubleToString. rewrite neg_prec by exact P. unfold unsigned_text.
  destruct x as [s|s| |s m e H]; try discriminate Fx.
  - exfalso. cbn [B2R] in X. rewrite Rabs_R0 in X. assert (0 < powerRZ 10 d)%R by (apply powerRZ_lt; lra). lra.
  - fold (num_of m e) (den_of e). rewrite B2R_parts in *. rewrite Rabs_sgn in X.
    pose proof (num_pos m e) as Np. pose proof (den_pos e) as Dp.
    rewrite Rabs_pos_eq in X.
    2: { apply IZR_lt in Np, Dp. apply Rmult_le_pos; [lra|left; apply Rinv_0_lt_compat; exact Dp]. }
    eexists. split; [apply (general_ok _ _ p _ _ d (sign_text_ok s) P Np Dp X)|].
    apply rounded_sign. replace (d - (Z.max 1 p - 1)) with (- (Z.max 1 p - 1 - d)) by lia.
    replace (d + 1 - Z.max 1 p) with (- (Z.max 1 p - 1 - d)) by lia.
    apply scaled_ok; lia.
Qed.

Lemma text_zero : forall ns (x : b64) p, is_finite x = true -> 0 <= p -> B2R x = 0%R ->
  numeral (DoubleToString ns x p false) 0.
Proof.
  intros ns x p Fx P X. unfold DoubleToString. rewrite neg_prec by exact P. unfold unsigned_text.
  destruct x as [s|s| |s m e H]; try discriminate Fx.
  - apply (general_zero _ _ p 1 (sign_text_ok s) P).
  - exfalso. rewrite B2R_parts in X. pose proof (num_pos m e) as Np. pose proof (den_pos e) as Dp.
    apply IZR_lt in Np, Dp. assert (Y : (0 < IZR (num_of m e) / IZR (den_of e))%R) by (apply Rdiv_lt_0_compat; assumption).
    destruct s; cbn [sgn] in X; lra.
Qed.

Lemma decade_exists : forall v, (0 < v)%R -> exists d, (powerRZ 10 d <= v < powerRZ 10 (d + 1))%R.
Proof.
  intros v H. pose (r10 := Build_radix 10 eq_refl). exists (mag r10 v - 1).
  replace (mag r10 v - 1 + 1) with (mag r10 v : Z) by lia.
  destruct (mag r10 v) as [m E]. cbn [mag_val]. specialize (E (Rgt_not_eq _ _ H)). rewrite Rabs_pos_eq in E by lra.
  assert (Q : forall n, powerRZ 10 n = bpow r10 n) by (intros n; symmetry; apply (bpow_powerRZ r10)).
  rewrite !Q. exact E.
Qed.
