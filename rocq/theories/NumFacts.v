(** Order laws of the two arithmetic instances and rewriting lemmas. *)
From Coq Require Import ZArith Reals Lra Lia Bool List.
From Flocq Require Import Core.Core IEEE754.BinarySingleNaN.
From Verif Require Import Num.
Open Scope R_scope.

Lemma Rltb_true : forall x y, Rltb x y = true <-> x < y.
Proof. intros x y; unfold Rltb; destruct (Rlt_dec x y); split; intros; try easy. Qed.
Lemma Rltb_false : forall x y, Rltb x y = false <-> y <= x.
Proof. intros x y; unfold Rltb; destruct (Rlt_dec x y); split; intros; try easy; lra. Qed.
Lemma Rleb_true : forall x y, Rleb x y = true <-> x <= y.
Proof. intros x y; unfold Rleb; destruct (Rle_dec x y); split; intros; try easy. Qed.
Lemma Rleb_false : forall x y, Rleb x y = false <-> y < x.
Proof. intros x y; unfold Rleb; destruct (Rle_dec x y); split; intros; try easy; lra. Qed.
Lemma Reqb_true : forall x y, Reqb x y = true <-> x = y.
Proof. intros x y; unfold Reqb; destruct (Req_EM_T x y); split; intros; try easy. Qed.
Lemma Reqb_false : forall x y, Reqb x y = false <-> x <> y.
Proof. intros x y; unfold Reqb; destruct (Req_EM_T x y); split; intros; try easy. Qed.

Lemma RNum_ord : OrdLaws RNum (fun _ => True).
Proof.
  constructor; simpl; intros.
  - apply Rltb_false; lra.
  - rewrite Rltb_true in *; lra.
  - destruct (Reqb x y) eqn:E; [apply Reqb_true in E; subst|apply Reqb_false in E].
    + assert (Rltb y y = false) as -> by (apply Rltb_false; lra); reflexivity.
    + symmetry. destruct (Rltb x y) eqn:E1; [reflexivity|].
      destruct (Rltb y x) eqn:E2; [reflexivity|].
      apply Rltb_false in E1; apply Rltb_false in E2; lra.
  - destruct (Rleb x y) eqn:E; [apply Rleb_true in E|apply Rleb_false in E]; symmetry.
    + apply negb_true_iff, Rltb_false; lra.
    + apply negb_false_iff, Rltb_true; lra.
  - rewrite Rltb_true in *. rewrite Rltb_true. destruct (Rlt_dec x y); [tauto|right; lra].
Qed.

(** Embedding of the non-NaN doubles into the reals that preserves the order. *)
Definition key64 (x : b64) : R :=
  match x with
  | B754_infinity true => - bpow radix2 1024
  | B754_infinity false => bpow radix2 1024
  | _ => B2R x
  end.

Lemma key64_fin : forall x, is_finite x = true -> key64 x = B2R x.
Proof. intros [s|s| |s m e H]; simpl; intros; try easy. Qed.

Lemma B2R_bound : forall x : b64, - bpow radix2 1024 < B2R x < bpow radix2 1024.
Proof.
  intros x. generalize (abs_B2R_lt_emax 53 1024 x). intros H.
  apply Rabs_def2 in H. lra.
Qed.

Lemma num64_cases : forall x : b64, num64 x ->
  is_finite x = true \/ x = B754_infinity true \/ x = B754_infinity false.
Proof.
  intros [s|[]| |s m e H]; simpl; unfold num64; simpl; intros; auto; discriminate.
Qed.

Lemma compare64 : forall x y, num64 x -> num64 y ->
  Bcompare x y = Some (Rcompare (key64 x) (key64 y)).
Proof.
  intros x y Hx Hy.
  assert (Hb : 0 < bpow radix2 1024) by apply bpow_gt_0.
  destruct (num64_cases x Hx) as [Fx|[Ex|Ex]]; destruct (num64_cases y Hy) as [Fy|[Ey|Ey]].
  - rewrite (Bcompare_correct _ _ x y Fx Fy), !key64_fin by assumption; reflexivity.
  - subst y. rewrite key64_fin by assumption. generalize (B2R_bound x). cbn [key64]. intros.
    rewrite Rcompare_Gt by lra. destruct x as [s|[]| |[] m e He]; simpl in *; try discriminate; reflexivity.
  - subst y. rewrite key64_fin by assumption. generalize (B2R_bound x). cbn [key64]. intros.
    rewrite Rcompare_Lt by lra. destruct x as [s|[]| |[] m e He]; simpl in *; try discriminate; reflexivity.
  - subst x. rewrite (key64_fin y) by assumption. generalize (B2R_bound y). cbn [key64]. intros.
    rewrite Rcompare_Lt by lra. destruct y as [s|[]| |[] m e He]; simpl in *; try discriminate; reflexivity.
  - subst. rewrite Rcompare_Eq by reflexivity. reflexivity.
  - subst. cbn [key64]. rewrite Rcompare_Lt by lra. reflexivity.
  - subst x. rewrite (key64_fin y) by assumption. generalize (B2R_bound y). cbn [key64]. intros.
    rewrite Rcompare_Gt by lra. destruct y as [s|[]| |[] m e He]; simpl in *; try discriminate; reflexivity.
  - subst. cbn [key64]. rewrite Rcompare_Gt by lra. reflexivity.
  - subst. rewrite Rcompare_Eq by reflexivity. reflexivity.
Qed.

Lemma ltb64 : forall x y, num64 x -> num64 y -> Bltb x y = Rltb (key64 x) (key64 y).
Proof.
  intros x y Hx Hy. generalize (compare64 x y Hx Hy). unfold Bcompare, Bltb, SpecFloat.SFltb.
  intros ->. unfold Rltb. destruct (Rcompare_spec (key64 x) (key64 y)); destruct Rlt_dec; try reflexivity; lra.
Qed.
Lemma leb64 : forall x y, num64 x -> num64 y -> Bleb x y = Rleb (key64 x) (key64 y).
Proof.
  intros x y Hx Hy. generalize (compare64 x y Hx Hy). unfold Bcompare, Bleb, SpecFloat.SFleb.
  intros ->. unfold Rleb. destruct (Rcompare_spec (key64 x) (key64 y)); destruct Rle_dec; try reflexivity; lra.
Qed.
Lemma eqb64 : forall x y, num64 x -> num64 y -> Beqb x y = Reqb (key64 x) (key64 y).
Proof.
  intros x y Hx Hy. generalize (compare64 x y Hx Hy). unfold Bcompare, Beqb, SpecFloat.SFeqb.
  intros ->. unfold Reqb. destruct (Rcompare_spec (key64 x) (key64 y)); destruct Req_EM_T; try reflexivity; lra.
Qed.

Lemma B64_ord : forall lm, OrdLaws (B64 lm) num64.
Proof.
  intros lm. destruct RNum_ord as [H1 H2 H3 H4 H5]. constructor; cbn -[Bltb Bleb Beqb num64]; intros.
  - rewrite ltb64 by assumption. apply H1; trivial.
  - rewrite ltb64 in * by assumption. eapply H2; eauto.
  - rewrite eqb64, !ltb64 by assumption. apply H3; trivial.
  - rewrite leb64, !ltb64 by assumption. apply H4; trivial.
  - rewrite ltb64 in * by assumption. rewrite ltb64 by assumption. apply H5; trivial.
Qed.

(** Real instance: literals and powers. *)
Lemma Rlit0 : forall z, @fofZ RNum z = IZR z.
Proof. intros; unfold fofZ; simpl; ring. Qed.

Lemma Int_part_IZR : forall z, Int_part (IZR z) = z.
Proof.
  intros z. unfold Int_part. assert (up (IZR z) = (z + 1)%Z) as ->; [|lia].
  symmetry. apply tech_up; rewrite plus_IZR; lra.
Qed.

Lemma Rpow_c_Z : forall x z, Rpow_c x (IZR z) = powerRZ x z.
Proof.
  intros x z. unfold Rpow_c. rewrite Int_part_IZR. destruct Req_EM_T; [reflexivity|easy].
Qed.

Lemma Rpow_c_2 : forall x, Rpow_c x (@fofZ RNum 2) = x * x.
Proof. intros x. rewrite Rlit0, Rpow_c_Z. simpl. ring. Qed.
