(** Properties C36, C37 and C63. *)
From Coq Require Import ZArith Bool List Lia Reals Lra.
From Verif Require Import Num NumFacts ModelBase ModelPolynomial SpecPolynomial ProofReal ProofPolynomial.
Import ListNotations.
Open Scope R_scope.

(** C36: after any calls Y is the polynomial and Slope its derivative. *)
Theorem polynomial_y_and_slope :
  forall (store : addr -> list R) c cs p a,
    poly_run (N := RNum) store (Polynomial_new c) cs = Ok p -> py_coefficients p = CAddr a ->
    forall x,
      (forall t, Polynomial_Y (N := RNum) store p t = Ok (peval (store a) t)) /\
      exists s p', Polynomial_Slope (N := RNum) store p x = Ok (s, p') /\ derivable_pt_lim (peval (store a)) x s.
Proof. exact poly_values. Qed.
Print Assumptions polynomial_y_and_slope.

(** C36: in any arithmetic the answers are those of a new polynomial. *)
Theorem polynomial_queries_fresh :
  forall (N : Num) (store : addr -> list N) c cs p a,
    poly_run store (Polynomial_new c) cs = Ok p -> py_coefficients p = CAddr a ->
    let fresh := Polynomial_new (CAddr a) in
    (forall x, Polynomial_Y store p x = Polynomial_Y store fresh x) /\
    (forall x, omap fst (Polynomial_Slope store p x) = omap fst (Polynomial_Slope store fresh x)) /\
    (forall y n g, omap fst (Polynomial_X store p y n g) = omap fst (Polynomial_X store fresh y n g)) /\
    omap fst (Polynomial_Derivative store p) = omap fst (Polynomial_Derivative store fresh).
Proof. exact (@run_fresh). Qed.
Print Assumptions polynomial_queries_fresh.

(** C37 is false: x^2 = 1 has a solution, but from the guess 0 the answer is 0. *)
Theorem polynomial_inverse_refuted :
  exists p' (x : R),
    Polynomial_X (N := RNum) (one_store [0; 0; 1]) (Polynomial_new (CAddr 0%Z)) 1 3 0 = Ok (x, p') /\
    Rabs (peval [0; 0; 1] x - 1) > powerRZ 10 (- (3)) /\ peval [0; 0; 1] 1 = 1.
Proof. exact X_stuck. Qed.
Print Assumptions polynomial_inverse_refuted.

(** C37 is false also when the loop converges: one more step is taken after the
    tolerance is met.  Here the guess meets it and the answer misses it by far. *)
Theorem polynomial_inverse_overshoot_refuted :
  exists p' (x : R),
    let l := [1 / 1000; 0; 1] in let guess := 1 / 1000000 in
    Polynomial_X (N := RNum) (one_store l) (Polynomial_new (CAddr 0%Z)) 0 2 guess = Ok (x, p') /\
    Rabs (peval l guess - 0) <= powerRZ 10 (- (2)) /\ Rabs (peval l x - 0) > 200000.
Proof. exact X_overshoot. Qed.
Print Assumptions polynomial_inverse_overshoot_refuted.

(** C37, the true part: the answer is the Newton iterate one step past the first
    that meets the tolerance, or the hundredth. *)
Theorem polynomial_inverse_newton_partial :
  forall (store : addr -> list R) cp cs p a (y g : R) n slope,
    poly_run (N := RNum) store (Polynomial_new cp) cs = Ok p -> py_coefficients p = CAddr a ->
    store a <> [] -> powerRZ 10 (- n) < 999999 ->
    (forall x, derivable_pt_lim (peval (store a)) x (slope x)) ->
    let x := newton (peval (store a)) slope y g in
    exists m p', (1 <= m <= 100)%nat /\
      Polynomial_X (N := RNum) store p y n g = Ok (x m, p') /\
      (forall j, (S j < m)%nat -> powerRZ 10 (- n) < Rabs (peval (store a) (x j) - y)) /\
      (m = 100%nat \/ Rabs (peval (store a) (x (m - 1)%nat) - y) <= powerRZ 10 (- n)).
Proof. exact X_is_newton. Qed.
Print Assumptions polynomial_inverse_newton_partial.

(** C37, the true part: a straight line is inverted exactly. *)
Theorem polynomial_inverse_linear_partial :
  forall (store : addr -> list R) cp cs p a (c0 c1 y g : R) n,
    poly_run (N := RNum) store (Polynomial_new cp) cs = Ok p -> py_coefficients p = CAddr a ->
    store a = [c0; c1] -> c1 <> 0 -> powerRZ 10 (- n) < 999999 ->
    exists x p', Polynomial_X (N := RNum) store p y n g = Ok (x, p') /\ peval (store a) x = y.
Proof. exact X_linear. Qed.
Print Assumptions polynomial_inverse_linear_partial.

(** C63 is false: after the client changed its vector, Y uses the new coefficients
    and Slope still those from before. *)
Theorem polynomial_follows_vector_refuted :
  exists s p,
    Polynomial_Slope (N := RNum) (one_store [0; 1]) (Polynomial_new (CAddr 0%Z)) 5 = Ok (s, p) /\
    exists s' p', Polynomial_Slope (N := RNum) (one_store [0; 3]) p 5 = Ok (s', p') /\ s' = 1 /\
      derivable_pt_lim (peval [0; 3]) 5 3 /\
      Polynomial_Y (N := RNum) (one_store [0; 3]) p 5 = Ok 15.
Proof. exact slope_stale. Qed.
Print Assumptions polynomial_follows_vector_refuted.

(** ** A concrete case: a history with two vectors that meets the hypotheses. *)
Definition two_store : addr -> list R := fun a => if (a =? 0)%Z then [1; 2; 3] else [4; 5].

Example polynomial_case :
  exists p, poly_run (N := RNum) two_store (Polynomial_new (CAddr 0%Z)) [PY (N := RNum) 2; PSlope (N := RNum) 2; PSet (CAddr 1%Z); PValidate; PSlope (N := RNum) 1] = Ok p /\
    py_coefficients p = CAddr 1%Z /\ two_store 1%Z = [4; 5] /\ (5 <> 0) /\ powerRZ 10 (- (2)) < 999999 /\
    Polynomial_Y (N := RNum) two_store p 3 = Ok 19.
Proof.
  eexists. split; [reflexivity|]. split; [reflexivity|]. split; [reflexivity|]. split; [lra|]. split; [simpl; lra|].
  assert (E : Y_list (N := RNum) [4; 5] 3 = 19) by (rewrite Y_list_R; cbn; ring).
  rewrite <- E. reflexivity.
Qed.
