(** A <cmath> whose pow is accurate for small integer exponents. *)
From Coq Require Import ZArith Bool List Reals Lra Lia.
From Flocq Require Import Core.Core IEEE754.BinarySingleNaN.
From Verif Require Import Num ProofSearch SpecUnits64 ProofDouble SampleElong.
Import ListNotations.

(** The exponent of a call, if it is small. *)
Definition exponent_of (y : b64) : option Z :=
  find (fun z => Beqb y (b64_ofZ z)) [-4; -3; -2; -1; 0; 1; 2; 3; 4]%Z.

(** Powers by exact integer powers, rounded once. *)
Definition power64 (x : b64) (k : Z) : b64 :=
  match x with
  | B754_finite s m e _ => binary_normalize 53 1024 Hprec64 Hemax64 mode_NE (cond_Zopp s (Zpos m) ^ k) (e * k) false
  | _ => B754_nan
  end.

Definition precise_pow (x y : b64) : b64 :=
  match exponent_of y with
  | Some z => if (z <? 0)%Z then @Bdiv 53 1024 Hprec64 Hemax64 mode_NE (b64_ofZ 1) (power64 x (- z)) else power64 x z
  | None => B754_nan
  end.

Definition precise : Libm := mkLibm precise_pow id64 id64 id64 id64 id64 id64 id64 id64 id64.

Open Scope R_scope.

Lemma exponent_of_Z : forall z, (-4 <= z <= 4)%Z -> exponent_of (b64_ofZ z) = Some z.
Proof.
  intros z H. assert (z = -4 \/ z = -3 \/ z = -2 \/ z = -1 \/ z = 0 \/ z = 1 \/ z = 2 \/ z = 3 \/ z = 4)%Z as D by lia.
  repeat destruct D as [-> |D]; [..|subst z]; vm_compute; reflexivity.
Qed.

Lemma power64_near : forall (x : b64) k, is_finite x = true -> mid 21 (B2R x) -> (0 <= k <= 4)%Z ->
  near 1 (power64 x k) (B2R x ^ Z.to_nat k).
Proof.
  intros x k H M K. destruct x as [s|s| |s m e b]; try discriminate H.
  { exfalso. exact (mid_nz _ _ M eq_refl). }
  cbn [power64]. generalize (binary_normalize_correct 53 1024 Hprec64 Hemax64 mode_NE (cond_Zopp s (Zpos m) ^ k) (e * k) false).
  cbn zeta. fold (rnd64 (F2R (Float radix2 (cond_Zopp s (Zpos m) ^ k) (e * k)))).
  assert (E : F2R (Float radix2 (cond_Zopp s (Zpos m) ^ k) (e * k)) = B2R (B754_finite s m e b) ^ Z.to_nat k).
  { cbn [B2R]. unfold F2R. cbn [Fnum Fexp]. rewrite Rpow_mult_distr. f_equal.
    - rewrite <- (Z2Nat.id k) at 1 by lia. rewrite <- pow_IZR. reflexivity.
    - rewrite <- (Z2Nat.id k) at 1 by lia. clear. induction (Z.to_nat k) as [|n IH]; [rewrite Z.mul_0_r; reflexivity|].
      rewrite Nat2Z.inj_succ, Z.mul_succ_r, Z.add_comm, bpow_plus, IH. reflexivity. }
  rewrite E. assert (Q : mid 1020 (B2R (B754_finite s m e b) ^ Z.to_nat k)).
  { apply (mid_more (Z.of_nat (Z.to_nat k) * 21)); [lia|]. apply mid_pow, M. }
  destruct (rnd_rel _ Q) as (A & n & B & C). rewrite Rlt_bool_true by exact A. intros (V & W & _).
  split; [exact W|]. exists n. split; [exact B|]. rewrite V. exact C.
Qed.

Lemma precise_accurate : accurate_pow precise.
Proof.
  intros x z H R Z. cbn [lm_pow precise]. unfold precise_pow. rewrite exponent_of_Z by exact Z.
  assert (P : 0 < B2R x) by (generalize (bpow_gt_0 radix2 (-21)); lra).
  assert (M : mid 21 (B2R x)) by (unfold mid; rewrite Rabs_pos_eq by lra; exact R).
  assert (N : near 2 (if (z <? 0)%Z then @Bdiv 53 1024 Hprec64 Hemax64 mode_NE (b64_ofZ 1) (power64 x (- z)) else power64 x z) (powerRZ (B2R x) z)).
  { destruct (Z.ltb_spec z 0) as [L|L].
    - assert (E : powerRZ (B2R x) z = 1 / B2R x ^ Z.to_nat (- z)).
      { destruct z as [|p|p]; try lia. cbn [powerRZ Z.opp Z.to_nat]. unfold Rdiv. ring. }
      rewrite E. change 2%nat with (S (0 + 1)). assert (Q := mid_pow 21 _ (Z.to_nat (- z)) M).
      eapply (near_div 0 1 84); [lia|lia|apply near_ofZ; lia|apply power64_near; [exact H|exact M|lia]|exact (mid_nz _ _ Q)|].
      unfold Rdiv. rewrite Rmult_1_l. apply mid_inv. apply (mid_more _ 84) in Q; [exact Q|lia].
    - apply (near_more 1); [lia|]. replace (powerRZ (B2R x) z) with (B2R x ^ Z.to_nat z).
      + apply power64_near; [exact H|exact M|lia].
      + destruct z as [|p|p]; try lia; reflexivity. }
  destruct N as (A & m & B & C). split; [exact A|]. rewrite C.
  assert (PP : 0 < powerRZ (B2R x) z) by (apply powerRZ_lt, P).
  replace (powerRZ (B2R x) z * m - powerRZ (B2R x) z) with ((m - 1) * powerRZ (B2R x) z) by ring.
  rewrite Rabs_mult, (Rabs_pos_eq (powerRZ (B2R x) z)) by lra. apply Rmult_le_compat_r; [lra|].
  apply Rle_trans with (1 := rel_bound 2 m ltac:(lia) B). rewrite INR_IZR_INZ. unfold half_ulp. cbn. lra.
Qed.
