(** Copies and derivative polynomials: counterexamples and cases. *)
From Coq Require Import ZArith Bool List Lia Reals Lra.
From Verif Require Import Num NumFacts ModelBase ModelPolynomial SpecPolynomial ModelHeap SpecHeap ProofReal ProofPolynomial ProofHeap.
Import ListNotations.
Open Scope Z_scope.

Lemma copy_bad : forall N : Num, exists (cs : list (HeapCall N)) m i, heap_run Memory_empty cs = Ok m /\
  cs = [HVector 0 (Some [fofZ 1; fofZ 2]); HNew (VClient 0); HSlope 0 (fofZ 1); HCopy 0; HDestroy 0] /\
  lives m i /\ me_destroy m i = UB /\ readable m i /\ forall x, me_Slope m i x = UB.
Proof.
  intros N. eexists _, _, 2. split; [|split; [reflexivity|]]; [reflexivity|].
  split; [discriminate|]. split; [reflexivity|]. split; [|reflexivity]. eexists. split; [reflexivity|]. discriminate.
Qed.

Lemma assign_leak : forall N : Num, exists (cs : list (HeapCall N)) m d, heap_run Memory_empty cs = Ok m /\
  (forall i, ~ lives m i) /\ me_derivatives m d <> None.
Proof.
  intros N. exists [HVector 0 (Some [fofZ 1; fofZ 2]); HNew (VClient 0); HSlope 0 (fofZ 1); HNew (VClient 0); HAssign 0 2; HDestroy 0; HDestroy 2].
  eexists _, 1. split; [reflexivity|]. split; [|discriminate].
  intros i L. apply L. cbn. unfold put. destruct (i =? 2), (i =? 0); reflexivity.
Qed.

Lemma derivative_bad : forall N : Num, exists (cs : list (HeapCall N)) m k, heap_run Memory_empty cs = Ok m /\ careful [] cs /\ lives m k /\
  (forall x, exists v, me_Y m k x = Ok v) /\ exists m', heap_call m (HDestroy 0) = Ok m' /\ forall x, me_Y m' k x = UB.
Proof.
  intros N. exists [HVector 0 (Some [fofZ 1; fofZ 2]); HNew (VClient 0); HDerivative 0]. eexists _, 2. split; [reflexivity|].
  split; [cbn; tauto|]. split; [discriminate|]. split; [intros x; eexists; reflexivity|]. eexists. split; [reflexivity|]. reflexivity.
Qed.

Lemma derivative_moves : exists (cs cs' : list (HeapCall RNum)) m m' k, heap_run Memory_empty cs = Ok m /\ heap_run m cs' = Ok m' /\
  careful [] (cs ++ cs') /\ cs' = [HSet 0 (VClient 1); HSlope 0 (0 : RNum)%R] /\
  me_Y m k (0 : RNum)%R = Ok (2 : RNum)%R /\ me_Y m' k (0 : RNum)%R = Ok (7 : RNum)%R.
Proof.
  eexists [HVector 0 (Some [1 : RNum; 2 : RNum]%R); HVector 1 (Some [1 : RNum; 7 : RNum]%R); HNew (VClient 0); HDerivative 0], _, _, _, 2.
  split; [reflexivity|]. split; [|split; [|split; [reflexivity|]]]; [reflexivity|cbn; tauto|].
  split; match goal with |- ?a = ?c => let b := eval hnf in a in change (b = c) end; f_equal; rewrite Y_list_R; cbn; rn; ring.
Qed.

Definition heap_sample : list (HeapCall RNum) :=
  [HVector 0 (Some [1 : RNum; 2 : RNum; 3 : RNum]%R); HNew (VClient 0); HCopy 0; HSlope 0 (5 : RNum)%R; HSlope 1 (5 : RNum)%R; HDerivative 0].

Lemma ownership_case : exists m, heap_run Memory_empty heap_sample = Ok m /\ careful [] heap_sample /\
  NoDup [4; 0; 1] /\ (forall i, In i [4; 0; 1] <-> lives m i) /\ readable m 1 /\ readable m 4.
Proof.
  eexists. split; [reflexivity|]. split.
  { cbn. intuition. }
  split. { repeat constructor; cbn; intuition discriminate. }
  split.
  { intros i. unfold lives. cbn. unfold put. cbn [In].
    destruct (Z.eqb_spec i 4) as [->|]; [split; [discriminate|tauto]|].
    destruct (Z.eqb_spec i 1) as [->|]; [split; [discriminate|tauto]|].
    destruct (Z.eqb_spec i 0) as [->|]; [split; [discriminate|tauto]|]. split; [lia|congruence]. }
  split; eexists; (split; [reflexivity|discriminate]).
Qed.

Lemma derivative_case : exists m m1, heap_run Memory_empty (removelast heap_sample) = Ok m /\ careful [] (removelast heap_sample) /\
  me_Derivative m 0 = Ok m1 /\ me_next m1 - 1 = 4 /\
  exists m2, heap_run m1 [HDestroy 1; HVector 0 None; HSlope 0 (6 : RNum)%R] = Ok m2 /\ me_Y m2 4 (5 : RNum)%R = Ok (32 : RNum)%R.
Proof.
  eexists _, _. split; [reflexivity|]. split; [cbn; intuition|]. split; [reflexivity|]. split; [reflexivity|].
  eexists. split; [reflexivity|].
  match goal with |- ?a = ?c => let b := eval hnf in a in change (b = c) end. f_equal. rewrite Y_list_R. cbn. rn. ring.
Qed.
