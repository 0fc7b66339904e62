(** Structures stay within one unit of the alignment (exact arithmetic). *)
From Coq Require Import ZArith Bool List Lia Reals Lra.
From Verif Require Import Num NumFacts ModelBase ModelAlignment ModelLine SpecLine ListFacts ProofAlignment
  SpecTransmission ProofLine ProofLineInv ProofLineFacts ProofLineCoord ProofLineSafe.
Import ListNotations.
Open Scope R_scope.

Section P.
Context {P : Type}.
Let tr : F RNum -> Prop := fun _ => True.
Implicit Types l : Line RNum P.

Definition near (a : list (AlignmentPoint RNum)) (st : R) : Prop :=
  exists p q, In p a /\ In q a /\ ap_station p - 1 < st /\ st < ap_station q + 1.

Lemma near_range_like : range_like (N := RNum) tr near.
Proof.
  split.
  - intros a st _ _ (p & q & Hp & Hq & H1 & H2). apply Rleb_true in H1. apply Rleb_true in H2.
    exists p, q. repeat split; try (eapply nth_error_In; eauto); lra.
  - intros a a' st HS HS' _ HE (p & q & Hp & Hq & H1 & H2).
    assert (NE : a <> []) by (intros ->; contradiction).
    destruct (nonempty_ends _ _ NE) as (pf & pl & Hf & Hl).
    assert (K1 := first_le tr RNum_ord a pf p HS Hf Hp). apply Rleb_true in K1.
    assert (K2 := le_last tr RNum_ord a pl q HS Hl Hq). apply Rleb_true in K2.
    exists pf, pl. split; [apply HE; auto|]. split; [apply HE; auto|]. simpl in *. lra.
Qed.

Lemma modify_near : forall l i s l', all_on near l ->
  ModifyLineStructure l i s = (l', Ok true) -> near (tl_alignment l) (ls_station s).
Proof.
  intros l i s l' HA H. unfold all_on in HA. rewrite Forall_forall in HA.
  apply ModifyLineStructure_cases in H as [[_ H]|H]; [discriminate| |discriminate].
  destruct H as (id & s0 & st & Hi & Hn & _ & Hb & Ha & Hf & Hl & _).
  assert (L : (Z.to_nat i < length (tl_line_structures l))%nat) by (apply nth_error_Some; congruence).
  assert (A : exists p, In p (tl_alignment l) /\ ap_station p - 1 < ls_station s).
  { destruct (Z.eq_dec i 0) as [E|E].
    - destruct (Hf E) as (pf & K1 & K2). apply front_nth in K1. apply Rleb_false in K2.
      rewrite Rlit0 in K2; simpl in K2; exists pf. split; [eapply nth_error_In; eauto|auto].
    - destruct (Hb E) as (nb & K1 & K2). apply Rleb_false in K2. apply nth_error_In in K1.
      destruct (HA nb K1) as (p & q & Hp & _ & K3 & _). exists p. split; auto. simpl in *. lra. }
  assert (B : exists q, In q (tl_alignment l) /\ ls_station s < ap_station q + 1).
  { destruct (Z.eq_dec i (Z.of_nat (length (tl_line_structures l)) - 1)) as [E|E].
    - destruct (Hl E) as (pf & K1 & K2). apply back_nth in K1. apply Rleb_false in K2.
      rewrite Rlit0 in K2; simpl in K2; exists pf. split; [eapply nth_error_In; eauto|auto].
    - destruct Ha as (na & K1 & K2); [lia|]. apply Rleb_false in K2. apply nth_error_In in K1.
      destruct (HA na K1) as (p & q & _ & Hq & _ & K3). exists q. split; auto. simpl in *. lra. }
  destruct A as (p & Hp & A). destruct B as (q & Hq & B). exists p, q. auto.
Qed.

Lemma run_near : forall calls l l', Inv (N := RNum) tr l -> Forall (call_args_ok (N := RNum) tr) calls ->
  line_run_from l calls = Some l' -> all_on near l -> all_on near l'.
Proof.
  induction calls as [|c calls IH]; intros l l' HI HO H HA; simpl in H; [inversion H; subst; auto|].
  inversion HO; subst.
  destruct (line_step l c) as [l1 r] eqn:E.
  assert (NU : r <> UB) by (intros ->; discriminate).
  apply (IH l1); auto.
  - eapply (step_Inv tr RNum_ord l c); eauto.
  - destruct r; congruence.
  - eapply (step_all_on tr RNum_ord near l c); eauto using near_range_like.
    destruct c; auto. intros l2 K. eapply modify_near; eauto.
Qed.

Lemma line_near_alignment : forall l, reachable (N := RNum) tr l ->
  Forall (fun s : LineStructure RNum => exists first last, nth_error (tl_alignment l) 0 = Some first /\
     nth_error (tl_alignment l) (length (tl_alignment l) - 1) = Some last /\
     ap_station first - 1 < ls_station s /\ ls_station s < ap_station last + 1) (structures_of l).
Proof.
  intros l (calls & HO & H).
  assert (HI := run_Inv tr RNum_ord calls l HO H).
  assert (K : all_on near l).
  { eapply run_near; [apply (Inv_empty (N := RNum) tr)|exact HO|exact H|constructor]. }
  unfold all_on, structures_of in *. rewrite Forall_map. rewrite Forall_forall in *. intros n Hn.
  destruct (K n Hn) as (p & q & Hp & Hq & K1 & K2).
  assert (NE : tl_alignment l <> []) by (intros E; rewrite E in Hp; contradiction).
  destruct (nonempty_ends _ _ NE) as (pf & pl & Hf & Hl). exists pf, pl. split; auto. split; auto.
  assert (Q1 := first_le tr RNum_ord _ pf p (proj1 HI) Hf Hp). apply Rleb_true in Q1.
  assert (Q2 := le_last tr RNum_ord _ pl q (proj1 HI) Hl Hq). apply Rleb_true in Q2. simpl in *. lra.
Qed.
End P.
