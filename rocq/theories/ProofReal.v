(** Facts about the real instance: literals, the truncated pi of the code and the
    conversion between degrees and radians. *)
From Coq Require Import ZArith Bool List Reals Lra Lia Psatz Machin.
From Verif Require Import Num NumFacts ModelBase.
Import ListNotations.
Open Scope R_scope.

(** Show real operations instead of the projections of [RNum]. *)
Ltac rn := cbn [F fadd fsub fmul fdiv fopp fabs fsqrt fltb fleb feqb fpow fsin fcos ftan
  fasin facos fatan fsinh fcosh fasinh fround RNum] in *; rewrite ?Rlit0 in *.

(** An equation in the carrier of [RNum] is one between reals. *)
Ltac req := match goal with |- @eq _ ?a ?b => change (@eq R a b) end.

Ltac rfield := apply Rminus_diag_uniq; field.
Ltac rring := apply Rminus_diag_uniq; ring.

Ltac rbool :=
  repeat match goal with
  | H : Rltb _ _ = true |- _ => apply Rltb_true in H
  | H : Rltb _ _ = false |- _ => apply Rltb_false in H
  | H : Rleb _ _ = true |- _ => apply Rleb_true in H
  | H : Rleb _ _ = false |- _ => apply Rleb_false in H
  | H : Reqb _ _ = true |- _ => apply Reqb_true in H
  | H : Reqb _ _ = false |- _ => apply Reqb_false in H
  | H : (_ && _)%bool = true |- _ => apply andb_prop in H; destruct H
  | H : negb _ = true |- _ => apply negb_true_iff in H
  | H : negb _ = false |- _ => apply negb_false_iff in H
  end.

Lemma flit_R : forall m e, @flit RNum m e = IZR m * powerRZ 10 e.
Proof. reflexivity. Qed.


Lemma Rpow_c_1 : forall x, Rpow_c x 1 = x.
Proof. intros x. change 1 with (IZR 1) at 1. rewrite Rpow_c_Z. simpl. ring. Qed.

Lemma Rpow_2 : forall x, Rpow_c x 2 = x * x.
Proof. intros x. change 2 with (IZR 2). rewrite Rpow_c_Z. simpl. ring. Qed.

Lemma kPi_val : @kPi RNum = 314159265358979 / 100000000000000.
Proof.
  unfold kPi. rewrite flit_R. simpl. lra.
Qed.

Definition K : R := 314159265358979 / 100000000000000.

(** The truncated pi is below pi by less than 4e-15. *)
Lemma PI_K : K < PI < K + 4 / 1000000000000000.
Proof.
  destruct (PI_2_3_7_ineq 8) as [_ U]. destruct (PI_2_3_7_ineq 7) as [L _].
  unfold K. split.
  - apply Rlt_le_trans with (4 * sum_f_R0 (tg_alt PI_2_3_7_tg) (S (2 * 7))); [|lra].
    clear. unfold tg_alt, PI_2_3_7_tg, Ratan_seq. simpl sum_f_R0. simpl INR. simpl pow. lra.
  - apply Rle_lt_trans with (4 * sum_f_R0 (tg_alt PI_2_3_7_tg) (2 * 8)); [lra|].
    clear. unfold tg_alt, PI_2_3_7_tg, Ratan_seq. simpl sum_f_R0. simpl INR. simpl pow. lra.
Qed.

Lemma Rabs_both : forall x b, Rabs x <= b -> - b <= x <= b.
Proof. intros x b H. unfold Rabs in H. destruct Rcase_abs; lra. Qed.
