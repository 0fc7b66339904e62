(** Proofs about the unit conversions in double precision. *)
From Coq Require Import ZArith Bool List Reals Lra Lia Psatz.
From Flocq Require Import Core.Core Relative IEEE754.BinarySingleNaN.
From Verif Require Import Num NumFacts ModelBase ProofReal ProofSearch SpecUnits SpecUnits64 ProofUnits ProofDouble.
Open Scope R_scope.

Section Units64.
Variable lm : Libm.
Hypothesis pow : accurate_pow lm.
Notation D := (B64 lm).

Lemma mid_rat : forall a b k, (0 < a)%Z -> (0 < b)%Z -> (0 <= k)%Z -> (b <= a * 2 ^ k)%Z -> (a <= b * 2 ^ k)%Z -> mid k (IZR a / IZR b).
Proof.
  intros a b k Ha Hb Hk H1 H2. apply IZR_lt in Ha, Hb. apply IZR_le in H1, H2. rewrite mult_IZR in H1, H2.
  change 2%Z with (radix_val radix2) in H1, H2. rewrite IZR_Zpower in H1, H2 by exact Hk.
  unfold mid. rewrite Rabs_pos_eq by (left; apply Rdiv_lt_0_compat; assumption). rewrite bpow_opp.
  assert (P := bpow_gt_0 radix2 k). split.
  - apply Rmult_le_reg_r with (IZR b * bpow radix2 k); [apply Rmult_lt_0_compat; assumption|].
    unfold Rdiv. replace (/ bpow radix2 k * (IZR b * bpow radix2 k)) with (IZR b) by (field; lra).
    replace (IZR a * / IZR b * (IZR b * bpow radix2 k)) with (IZR a * bpow radix2 k) by (field; lra). exact H1.
  - apply Rmult_le_reg_r with (IZR b); [assumption|]. unfold Rdiv. rewrite Rmult_assoc, Rinv_l by lra. lra.
Qed.

Lemma near_lit : forall m k, (0 < m <= 2 ^ 53)%Z -> (0 < k <= 15)%Z ->
  near 1 (flit (n := D) m (- k)) (IZR m / IZR (10 ^ k)).
Proof.
  intros m k Hm Hk. cbn [flit B64]. unfold b64_lit. destruct k as [|p|p]; [lia| |lia]. cbn [Z.opp].
  assert (T : (1 <= 10 ^ Z.pos p <= 10 ^ 15)%Z).
  { split; [apply Z.le_trans with (10 ^ 0)%Z; [reflexivity|]|]; apply Z.pow_le_mono_r; lia. }
  assert ((10 ^ 15 <= 2 ^ 53)%Z) by (vm_compute; discriminate).
  change 1%nat with (S (0 + 0)). eapply (near_div 0 0 60).
  - lia.
  - lia.
  - apply near_ofZ. lia.
  - apply near_ofZ. lia.
  - apply not_0_IZR. lia.
  - apply mid_rat; try lia.
Qed.

Lemma near_int : forall z, (Z.abs z <= 2 ^ 53)%Z -> near 0 (fofZ (N := D) z) (IZR z).
Proof. intros z H. unfold fofZ. cbn [flit B64]. unfold b64_lit. rewrite Z.mul_1_r. apply near_ofZ, H. Qed.

(** A factor of the code and the real number it stands for. *)
Definition factor (f : b64) (g : R) : Prop := near 2 f g /\ mid 20 g /\ 0 < g.

Lemma factor_int : forall z, (0 < z <= 2 ^ 20)%Z -> factor (fofZ (N := D) z) (IZR z).
Proof.
  intros z H. split; [|split].
  - apply (near_more 0); [lia|]. apply near_int. lia.
  - replace (IZR z) with (IZR z / IZR 1) by (unfold Rdiv; rewrite Rinv_1; ring). apply mid_rat; lia.
  - apply IZR_lt. lia.
Qed.

Lemma factor_inv : forall f g, near 1 f g -> mid 20 g -> 0 < g -> factor (fdiv (n := D) (fofZ (N := D) 1) f) (1 / g).
Proof.
  intros f g H M P. assert (Q : mid 20 (1 / g)) by (unfold Rdiv; rewrite Rmult_1_l; apply mid_inv, M). split; [|split].
  - change 2%nat with (S (0 + 1)). eapply (near_div 0 1 20); [lia|lia| |exact H|lra|exact Q].
    apply near_int. lia.
  - exact Q.
  - apply Rdiv_lt_0_compat; lra.
Qed.

Lemma factor_int_inv : forall z, (0 < z <= 2 ^ 20)%Z -> factor (fdiv (n := D) (fofZ (N := D) 1) (fofZ (N := D) z)) (1 / IZR z).
Proof.
  intros z H. destruct (factor_int z H) as (_ & A & B). apply factor_inv; [|exact A|exact B].
  apply (near_more 0); [lia|]. apply near_int. lia.
Qed.

Lemma lit_mid : forall m k, (0 < m)%Z -> (0 < k <= 15)%Z -> (10 ^ k <= m * 2 ^ 20)%Z -> (m <= 10 ^ k * 2 ^ 20)%Z ->
  mid 20 (IZR m / IZR (10 ^ k)) /\ 0 < IZR m / IZR (10 ^ k).
Proof.
  intros m k A B C E. assert (0 < 10 ^ k)%Z by (apply Z.pow_pos_nonneg; lia). split; [apply mid_rat; lia|].
  apply Rdiv_lt_0_compat; apply IZR_lt; assumption.
Qed.

Lemma factor_lit : forall m k, (0 < m <= 2 ^ 53)%Z -> (0 < k <= 15)%Z -> (10 ^ k <= m * 2 ^ 20)%Z -> (m <= 10 ^ k * 2 ^ 20)%Z ->
  factor (flit (n := D) m (- k)) (IZR m / IZR (10 ^ k)).
Proof.
  intros m k A B C E. destruct (lit_mid m k ltac:(lia) B C E). split; [|split; assumption].
  apply (near_more 1); [lia|]. apply near_lit; assumption.
Qed.

Lemma factor_lit_inv : forall m k, (0 < m <= 2 ^ 53)%Z -> (0 < k <= 15)%Z -> (10 ^ k <= m * 2 ^ 20)%Z -> (m <= 10 ^ k * 2 ^ 20)%Z ->
  factor (fdiv (n := D) (fofZ (N := D) 1) (flit (n := D) m (- k))) (1 / (IZR m / IZR (10 ^ k))).
Proof.
  intros m k A B C E. destruct (lit_mid m k ltac:(lia) B C E). apply factor_inv; [|assumption|assumption].
  apply near_lit; assumption.
Qed.

Lemma pow_near : forall f g e, factor f g -> (-4 <= e <= 4)%Z -> near 13 (fpow (n := D) f (fofZ (N := D) e)) (powerRZ g e).
Proof.
  intros f g e (H & M & P) E. assert (Q := near_mid 2 20 f g ltac:(lia) H M). destruct H as (Hf & m & R & V).
  assert (PF : 0 < B2R f) by (rewrite V; apply Rmult_lt_0_compat; [exact P|exact (rel_pos 2 m R)]).
  destruct Q as [Q1 Q2]. rewrite Rabs_pos_eq in Q1, Q2 by lra.
  assert (Z : fofZ (N := D) e = b64_ofZ e). { unfold fofZ. cbn [flit B64]. unfold b64_lit. rewrite Z.mul_1_r. reflexivity. }
  cbn [fpow B64]. rewrite Z. destruct (pow f e Hf (conj Q1 Q2) E) as (A & B). split; [exact A|].
  assert (PP : 0 < powerRZ (B2R f) e) by (apply powerRZ_lt, PF).
  set (p := B2R (lm_pow lm f (b64_ofZ e))) in *.
  exists (powerRZ m e * (p / powerRZ (B2R f) e)). split.
  - apply (rel_more (Z.abs_nat e * 2 + 5)); [lia|]. apply rel_mul; [apply rel_powerRZ, R|]. apply rel_5.
    replace (p / powerRZ (B2R f) e - 1) with ((p - powerRZ (B2R f) e) / powerRZ (B2R f) e) by (field; lra).
    unfold Rdiv. rewrite Rabs_mult, Rabs_inv, (Rabs_pos_eq (powerRZ (B2R f) e)) by lra.
    apply Rmult_le_reg_r with (powerRZ (B2R f) e); [exact PP|]. rewrite Rmult_assoc, Rinv_l, Rmult_1_r by lra.
    apply Rle_trans with (1 := B). apply Rmult_le_compat_r; [lra|]. unfold half_ulp. cbn. lra.
  - rewrite V in *. rewrite powerRZ_mult in *.
    assert (powerRZ g e <> 0) by (apply powerRZ_nz; lra).
    assert (powerRZ m e <> 0) by (apply powerRZ_nz; generalize (rel_pos 2 m R); lra). field. auto.
Qed.

Lemma Convert_near : forall a k v r f g e n, near a v r -> (a <= 40)%nat -> (0 <= k <= 900)%Z -> (r = 0 \/ mid k r) ->
  factor f g -> (-4 <= e <= 4)%Z ->
  near (a + 15) (Convert (N := D) v f (fofZ (N := D) e) n) (Convert (N := RNum) r g (fofZ (N := RNum) e) n) /\
  (Convert (N := RNum) r g (fofZ (N := RNum) e) n = 0 \/ mid (k + 80) (Convert (N := RNum) r g (fofZ (N := RNum) e) n)).
Proof.
  intros a k v r f g e n H A K Z Ff E. rewrite Convert_R. assert (P := pow_near f g e Ff E).
  destruct Ff as (_ & M & Pg). assert (MP := mid_powerRZ 20 g e M). apply (mid_more _ 80) in MP; [|lia].
  assert (NZ : powerRZ g e <> 0) by (apply powerRZ_nz; lra).
  unfold Convert. destruct n.
  - split; [|destruct Z as [-> |Z]; [left; apply Rmult_0_l|right; apply mid_mul; assumption]].
    apply (near_more (S (a + 13))); [lia|]. eapply (near_mul a 13 980); [lia|lia|exact H|exact P|].
    destruct Z as [Z|Z]; [left; exact Z|right]. apply mid_more with (k + 80)%Z; [lia|]. apply mid_mul; assumption.
  - assert (MI := mid_inv 80 _ MP).
    split; [|destruct Z as [-> |Z]; [left; apply Rmult_0_l|right; apply mid_mul; assumption]].
    assert (Q : near 14 (fdiv (n := D) (fofZ (N := D) 1) (fpow (n := D) f (fofZ (N := D) e))) (/ powerRZ g e)).
    { replace (/ powerRZ g e) with (1 / powerRZ g e) by (unfold Rdiv; ring). change 14%nat with (S (0 + 13)).
      eapply (near_div 0 13 80); [lia|lia|apply near_int; lia|exact P|exact NZ|]. unfold Rdiv. rewrite Rmult_1_l. exact MI. }
    apply (near_more (S (a + 14))); [lia|]. eapply (near_mul a 14 980); [lia|lia|exact H|exact Q|].
    destruct Z as [Z|Z]; [left; exact Z|right]. apply mid_more with (k + 80)%Z; [lia|]. apply mid_mul; assumption.
Qed.

(** ** All conversions *)
(** [c] and [c'] are the same conversion in doubles and in real numbers. *)
Definition conversion (c : b64 -> Z -> bool -> b64) (c' : R -> Z -> bool -> R) : Prop :=
  exists f g, factor f g /\ (forall v e n, c v e n = Convert (N := D) v f (fofZ (N := D) e) n) /\
    (forall r e n, c' r e n = Convert (N := RNum) r g (fofZ (N := RNum) e) n).

Lemma conversion_intro : forall f g g', factor f g' -> g = g' ->
  conversion (fun v e n => Convert (N := D) v f (fofZ (N := D) e) n) (fun r e n => Convert (N := RNum) r g (fofZ (N := RNum) e) n).
Proof. intros f g g' H ->. exists f, g'. split; [exact H|]. split; reflexivity. Qed.

Ltac side := first [lia | (vm_compute; split; (reflexivity || discriminate)) | (vm_compute; discriminate)].
Ltac real := repeat match goal with |- context [(10 ^ ?k)%Z] => let w := eval vm_compute in (10 ^ k)%Z in change (10 ^ k)%Z with w end;
  unfold kPi; units_const; change (F RNum) with R in *; first [lra | field | (field; lra)].

Lemma length_conversion : forall t, t <> LCNull ->
  conversion (fun v e n => ConvertLength (N := D) v t e n) (fun r e n => ConvertLength (N := RNum) r t e n).
Proof.
  intros t H. destruct t; try congruence; unfold ConvertLength; eapply conversion_intro.
  - apply (factor_int_inv 100). side.
  - real.
  - apply (factor_int 12). side.
  - real.
  - apply (factor_lit 3048 4); side.
  - real.
  - apply (factor_int_inv 5280). side.
  - real.
  - apply (factor_int_inv 12). side.
  - real.
  - apply (factor_int 1000). side.
  - real.
  - apply (factor_int 100). side.
  - real.
  - apply (factor_lit_inv 3048 4); side.
  - real.
  - apply (factor_int_inv 1000). side.
  - real.
  - apply (factor_int 1000). side.
  - real.
  - apply (factor_int 5280). side.
  - real.
  - apply (factor_int_inv 1000). side.
  - real.
Qed.

Lemma force_conversion : forall t, t <> FCNull ->
  conversion (fun v e n => ConvertForce (N := D) v t e n) (fun r e n => ConvertForce (N := RNum) r t e n).
Proof.
  intros t H. destruct t; try congruence; unfold ConvertForce; eapply conversion_intro.
  - apply (factor_lit_inv 44482216152605 13); side.
  - real.
  - apply (factor_lit 44482216152605 13); side.
  - real.
Qed.

Lemma stress_conversion : forall t, t <> SCNull ->
  conversion (fun v e n => ConvertStress (N := D) v t e n) (fun r e n => ConvertStress (N := RNum) r t e n).
Proof.
  intros t H. destruct t; try congruence; unfold ConvertStress; eapply conversion_intro.
  - apply (factor_int 1000000). side.
  - real.
  - apply (factor_int_inv 1000000). side.
  - real.
  - apply (factor_lit_inv 4788026 5); side.
  - real.
  - apply (factor_lit 4788026 5); side.
  - real.
  - apply (factor_int_inv 144). side.
  - real.
  - apply (factor_int 144). side.
  - real.
Qed.

Lemma angle_conversion : forall t, t <> ACNull ->
  conversion (fun v e n => ConvertAngle (N := D) v t e n) (fun r e n => ConvertAngle (N := RNum) r t e n).
Proof.
  assert (P : near 1 (kPi (N := D)) (IZR 314159265358979 / IZR (10 ^ 14))) by (apply (near_lit 314159265358979 14); side).
  assert (V : kPi (N := RNum) = IZR 314159265358979 / IZR (10 ^ 14)) by (unfold kPi; real).
  set (q := IZR 314159265358979 / IZR (10 ^ 14)) in *.
  assert (X : fofZ (N := RNum) 180 = 180) by (unfold fofZ; rewrite flit_R; simpl; lra).
  assert (Q : 3 < q < 4) by (unfold q; lra).
  intros t H. destruct t; try congruence; unfold ConvertAngle.
  - exists (kAngleDegreesToRadians (N := D)), (q / 180). split; [|split; [reflexivity|]].
    + assert (M : mid 20 (q / 180)). { unfold mid. rewrite Rabs_pos_eq by lra. cbn. lra. }
      split; [|split; [exact M|lra]].
      change 2%nat with (S (1 + 0)). eapply (near_div 1 0 20); [lia|lia|exact P|apply (near_int 180); lia|lra|exact M].
    + intros. unfold kAngleDegreesToRadians. rewrite V, X. reflexivity.
  - exists (kAngleRadiansToDegrees (N := D)), (180 / q). split; [|split; [reflexivity|]].
    + assert (45 < 180 / q < 60).
      { split; apply Rmult_lt_reg_r with q; try lra; unfold Rdiv; rewrite Rmult_assoc, Rinv_l; lra. }
      assert (M : mid 20 (180 / q)). { unfold mid. rewrite Rabs_pos_eq by lra. cbn. lra. }
      split; [|split; [exact M|lra]].
      change 2%nat with (S (0 + 1)). eapply (near_div 0 1 20); [lia|lia|apply (near_int 180); lia|exact P|lra|exact M].
    + intros. unfold kAngleRadiansToDegrees. rewrite V, X. reflexivity.
Qed.

Lemma ordinary_near : forall v, ordinary v -> near 0 v (B2R v) /\ (B2R v = 0 \/ mid 800 (B2R v)).
Proof. intros v (A & B). split; [apply near_self, A|]. exact B. Qed.

Lemma same_quantity_scale : forall a b e n v v' m, same_quantity a b e n v v' -> same_quantity a b e n (v * m) (v' * m).
Proof.
  intros a b e n v v' m. unfold same_quantity. destruct n; intros H.
  - replace (v * m * powerRZ a e) with (v * powerRZ a e * m) by ring. rewrite H. ring.
  - unfold Rdiv in *. replace (v * m * / powerRZ a e) with (v * / powerRZ a e * m) by ring. rewrite H. ring.
Qed.

Lemma conversion_quantity : forall c c' a b v e n, conversion c c' -> ordinary v -> (-4 <= e <= 4)%Z ->
  same_quantity a b e n (B2R v) (c' (B2R v) e n) -> nearly_same_quantity (bpow radix2 (-49)) a b e n v (c v e n).
Proof.
  intros c c' a b v e n (f & g & Ff & C & C') V E S. destruct (ordinary_near v V) as (A & B).
  destruct (Convert_near 0 800 v (B2R v) f g e n A ltac:(lia) ltac:(lia) B Ff E) as ((X & m & Y & Z) & _).
  rewrite <- C, <- C' in *. split; [exact X|]. exists m. split.
  - apply Rle_trans with (1 := rel_bound 15 m ltac:(lia) Y). rewrite INR_IZR_INZ. unfold half_ulp. cbn. lra.
  - rewrite Z. apply same_quantity_scale, S.
Qed.

Lemma conversion_back : forall c c' d d' v e n, conversion c c' -> conversion d d' -> ordinary v -> (-4 <= e <= 4)%Z ->
  d' (c' (B2R v) e n) e n = B2R v -> nearly (bpow radix2 (-48)) (d (c v e n) e n) v.
Proof.
  intros c c' d d' v e n (f & g & Ff & C & C') (h & k & Fh & G & G') V E S. destruct (ordinary_near v V) as (A & B).
  destruct (Convert_near 0 800 v (B2R v) f g e n A ltac:(lia) ltac:(lia) B Ff E) as (X & Y).
  rewrite <- C, <- C' in *.
  destruct (Convert_near 15 880 _ _ h k e n X ltac:(lia) ltac:(lia) Y Fh E) as ((W & m & M & Z) & _).
  rewrite <- G, <- G' in *. split; [exact W|]. rewrite Z, S.
  replace (B2R v * m - B2R v) with ((m - 1) * B2R v) by ring. rewrite Rabs_mult.
  apply Rmult_le_compat_r; [apply Rabs_pos|].
  apply Rle_trans with (1 := rel_bound 30 m ltac:(lia) M). rewrite INR_IZR_INZ. unfold half_ulp. cbn. lra.
Qed.
End Units64.
