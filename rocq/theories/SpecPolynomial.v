(** Specification of polynomials over the reals, independent of polynomial.cc. *)
From Coq Require Import ZArith List Reals.
Import ListNotations.
Open Scope R_scope.

(** c0 + c1 x + c2 x^2 + ... *)
Fixpoint peval (l : list R) (x : R) : R :=
  match l with
  | [] => 0
  | c :: r => c + x * peval r x
  end.

(** The Newton sequence for f(x) = y; a point with zero slope is kept. *)
Fixpoint newton (f slope : R -> R) (y guess : R) (k : nat) : R :=
  match k with
  | O => guess
  | S k =>
      let x := newton f slope y guess k in
      if Req_EM_T (slope x) 0 then x else x - (f x - y) / slope x
  end.
