(** Properties of Polynomial objects in memory (polynomial.cc, polynomial.h). *)
From Coq Require Import ZArith List Reals.
From Verif Require Import Num NumFacts ModelBase ModelPolynomial ModelHeap SpecHeap ProofHeap ProofHeapCases.
Import ListNotations.
Open Scope Z_scope.

(** C138, the true part, for every program: if no polynomial is copied or assigned after it
    was asked for its derivative, then all polynomials can be destroyed, in any order,
    every allocation is freed, and no query of a polynomial with coefficients is undefined. *)
Theorem polynomial_ownership_partial : forall (N : Num) (cs : list (HeapCall N)) m, heap_run Memory_empty cs = Ok m -> careful [] cs ->
  (forall is, NoDup is -> (forall i, In i is <-> lives m i) ->
     exists m', heap_run m (map HDestroy is) = Ok m' /\ (forall i, ~ lives m' i) /\ forall d, me_derivatives m' d = None) /\
  (forall i, readable m i -> forall x, me_Slope m i x <> UB /\ forall y n g, me_X m i y n g <> UB).
Proof. exact @ownership. Qed.
Print Assumptions polynomial_ownership_partial.

Example polynomial_ownership_case : exists m, heap_run Memory_empty heap_sample = Ok m /\ careful [] heap_sample /\
  NoDup [4; 0; 1] /\ (forall i, In i [4; 0; 1] <-> lives m i) /\ readable m 1 /\ readable m 4.
Proof. exact ownership_case. Qed.

(** C138 is false: the copy of a polynomial that was asked for its slope shares the
    derivative.  After the first is destroyed the copy cannot be destroyed or asked. *)
Theorem polynomial_copy_refuted : forall N : Num, exists (cs : list (HeapCall N)) m i, heap_run Memory_empty cs = Ok m /\
  cs = [HVector 0 (Some [fofZ 1; fofZ 2]); HNew (VClient 0); HSlope 0 (fofZ 1); HCopy 0; HDestroy 0] /\
  lives m i /\ me_destroy m i = UB /\ readable m i /\ forall x, me_Slope m i x = UB.
Proof. exact copy_bad. Qed.
Print Assumptions polynomial_copy_refuted.

(** C138 is false for assignments: the derivative of the target is never freed. *)
Theorem polynomial_assign_refuted : forall N : Num, exists (cs : list (HeapCall N)) m d, heap_run Memory_empty cs = Ok m /\
  (forall i, ~ lives m i) /\ me_derivatives m d <> None.
Proof. exact assign_leak. Qed.
Print Assumptions polynomial_assign_refuted.

(** C139, the true part: the polynomial that Derivative returns has the values that Slope
    gives at the time of the call, after any calls that do not set, assign to or destroy
    it or the polynomial it came from. *)
Theorem derivative_polynomial_partial : forall (N : Num) (cs : list (HeapCall N)) m i m1,
  heap_run Memory_empty cs = Ok m -> careful [] cs -> me_Derivative m i = Ok m1 ->
  let k := me_next m1 - 1 in
  forall cs' m2, heap_run m1 cs' = Ok m2 -> Forall (leaves i) cs' -> Forall (leaves k) cs' ->
  forall x, exists v m', me_Slope m i x = Ok (v, m') /\ me_Y m2 k x = Ok v.
Proof. exact @derivative_shown. Qed.
Print Assumptions derivative_polynomial_partial.

Example derivative_polynomial_case : exists m m1, heap_run Memory_empty (removelast heap_sample) = Ok m /\ careful [] (removelast heap_sample) /\
  me_Derivative m 0 = Ok m1 /\ me_next m1 - 1 = 4 /\
  exists m2, heap_run m1 [HDestroy 1; HVector 0 None; HSlope 0 (6 : RNum)%R] = Ok m2 /\ me_Y m2 4 (5 : RNum)%R = Ok (32 : RNum)%R.
Proof. exact derivative_case. Qed.

(** C139 is false: the returned polynomial is undefined after its origin is destroyed ... *)
Theorem derivative_polynomial_dangles_refuted : forall N : Num, exists (cs : list (HeapCall N)) m k,
  heap_run Memory_empty cs = Ok m /\ careful [] cs /\ lives m k /\
  (forall x, exists v, me_Y m k x = Ok v) /\ exists m', heap_call m (HDestroy 0) = Ok m' /\ forall x, me_Y m' k x = UB.
Proof. exact derivative_bad. Qed.
Print Assumptions derivative_polynomial_dangles_refuted.

(** ... and changes when its origin gets other coefficients and is asked for its slope. *)
Theorem derivative_polynomial_changes_refuted : exists (cs cs' : list (HeapCall RNum)) m m' k,
  heap_run Memory_empty cs = Ok m /\ heap_run m cs' = Ok m' /\
  careful [] (cs ++ cs') /\ cs' = [HSet 0 (VClient 1); HSlope 0 (0 : RNum)%R] /\
  me_Y m k (0 : RNum)%R = Ok (2 : RNum)%R /\ me_Y m' k (0 : RNum)%R = Ok (7 : RNum)%R.
Proof. exact derivative_moves. Qed.
Print Assumptions derivative_polynomial_changes_refuted.
