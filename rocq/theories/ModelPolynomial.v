(** Model of /repo/src/base/polynomial.cc and include/models/base/polynomial.h.

    A polynomial keeps a pointer to a vector owned by its client.  The vectors are
    a store [addr -> list N].  Copies of Polynomial objects are in ModelHeap.v. *)
From Coq Require Import ZArith Bool List.
From Verif Require Import Num ModelBase.
Import ListNotations.
Open Scope num_scope.

Section Poly.
Context {N : Num}.

Definition addr : Type := Z.

(** polynomial.h 101: the pointer member.  The default constructor leaves it
    uninitialised (polynomial.cc 10-13). *)
Inductive cptr : Type := CUninit | CNull | CAddr (a : addr).

(** polynomial.h 99-115. [py_derivative] is [None] for derivative_ == nullptr;
    otherwise derivative_ refers to coefficients_derivative_, whose content it
    holds here. *)
Record Polynomial : Type := mkPolynomial {
  py_coefficients : cptr;
  py_derivative : option (list N);
  py_updated : bool
}.

(** polynomial.cc 10-13 *)
Definition Polynomial_default : Polynomial := mkPolynomial CUninit None false.
(** polynomial.cc 15-19 *)
Definition Polynomial_new (c : cptr) : Polynomial := mkPolynomial c None false.

(** A dereference of coefficients_. *)
Definition coeffs (store : addr -> list N) (p : Polynomial) : outcome (list N) :=
  match py_coefficients p with CAddr a => Ok (store a) | _ => UB end.

(** polynomial.cc 127-131: the loop of Y from [order] on; the index is always in
    range *)
Fixpoint Y_loop (l : list N) (order : Z) (x y : N) : N :=
  match l with
  | [] => y
  | c :: r => Y_loop r (order + 1) x (y + (c * fpow x #order))
  end.

(** polynomial.cc 124-134 for a vector of coefficients *)
Definition Y_list (l : list N) (x : N) : N := Y_loop l 0 x #0.

(** polynomial.cc 124-134 *)
Definition Polynomial_Y (store : addr -> list N) (p : Polynomial) (x : N) : outcome N :=
  do l <- coeffs store p; Ok (Y_list l x).

(** polynomial.cc 37-39 *)
Definition Polynomial_OrderMax (store : addr -> list N) (p : Polynomial) : outcome Z :=
  do l <- coeffs store p; Ok (Z.of_nat (length l) - 1)%Z.

(** polynomial.cc 166-172: the coefficients of the derivative from [order] on *)
Fixpoint derivative_loop (l : list N) (order : Z) : list N :=
  match l with
  | [] => []
  | c :: r => (if (order =? 0)%Z then [] else [c * #order]) ++ derivative_loop r (order + 1)
  end.

(** polynomial.cc 162-181 *)
Definition UpdateDerivative (store : addr -> list N) (p : Polynomial) : outcome (list N) :=
  do l <- coeffs store p; Ok (derivative_loop l 0).

(** polynomial.cc 150-160 with IsUpdated (146-148); the update never fails *)
Definition Polynomial_Update (store : addr -> list N) (p : Polynomial) : outcome Polynomial :=
  if py_updated p then Ok p
  else do d <- UpdateDerivative store p; Ok (mkPolynomial (py_coefficients p) (Some d) true).

(** derivative_->Y(x) *)
Definition derivative_Y (p : Polynomial) (x : N) : outcome N :=
  match py_derivative p with Some d => Ok (Y_list d x) | None => UB end.

(** polynomial.cc 41-48 *)
Definition Polynomial_Slope (store : addr -> list N) (p : Polynomial) (x : N) : outcome (N * Polynomial) :=
  do p <- Polynomial_Update store p;
  do y <- derivative_Y p x; Ok (y, p).

(** polynomial.cc 50-79 with a non-null message list *)
Definition Polynomial_Validate (store : addr -> list N) (p : Polynomial) : outcome (bool * Polynomial) :=
  match py_coefficients p with
  | CUninit => UB
  | CNull => Ok (false, p)
  | CAddr _ => do p <- Polynomial_Update store p; Ok (true, p)
  end.

(** polynomial.cc 25-35: the coefficients of the returned polynomial *)
Definition Polynomial_Derivative (store : addr -> list N) (p : Polynomial) : outcome (list N * Polynomial) :=
  do p <- Polynomial_Update store p;
  match py_derivative p with Some d => Ok (d, p) | None => UB end.

(** polynomial.cc 105-119: [fuel] is the number of rounds left; [xf], [y] are
    point_function, [xd] is point_derivative.x *)
Fixpoint X_loop (fuel : nat) (precision : N) (shifted deriv : list N) (xf y xd : N) : N :=
  match fuel with
  | O => xf
  | S fuel =>
      if precision <? fabs y then
        let y := Y_list shifted xf in
        let yd := Y_list deriv xd in
        if yd =? #0 then X_loop fuel precision shifted deriv xf y xd
        else let xf := xf - y / yd in X_loop fuel precision shifted deriv xf y xf
      else xf
  end.

(** polynomial.cc 83-122 *)
Definition Polynomial_X (store : addr -> list N) (p : Polynomial) (y : N) (decimal_precision_y : Z)
    (x_guess : N) : outcome (N * Polynomial) :=
  do p <- Polynomial_Update store p;
  let precision_y := #1 / fpow #10 #decimal_precision_y in
  do l <- coeffs store p;
  match l with
  | [] => Throw
  | c :: r =>
      match py_derivative p with
      | None => UB
      | Some d => Ok (X_loop 100 precision_y (c - y :: r) d x_guess ferr x_guess, p)
      end
  end.

(** polynomial.cc 140-144 *)
Definition set_coefficients (p : Polynomial) (c : cptr) : Polynomial :=
  mkPolynomial c (py_derivative p) false.

(** Calls on one polynomial. *)
Inductive PolyCall : Type :=
| PSet (c : cptr)
| PY (x : N)
| PSlope (x : N)
| PX (y : N) (precision : Z) (guess : N)
| PValidate
| PDerivative.

(** The state after a call; a call with an exception leaves what Update did. *)
Definition poly_call (store : addr -> list N) (p : Polynomial) (c : PolyCall) : outcome Polynomial :=
  match c with
  | PSet c => Ok (set_coefficients p c)
  | PY x => do y <- Polynomial_Y store p x; Ok p
  | PSlope x => omap snd (Polynomial_Slope store p x)
  | PX y n g =>
      match Polynomial_X store p y n g with
      | Ok (_, p) => Ok p
      | Throw => Polynomial_Update store p
      | UB => UB
      end
  | PValidate => omap snd (Polynomial_Validate store p)
  | PDerivative => omap snd (Polynomial_Derivative store p)
  end.

Fixpoint poly_run (store : addr -> list N) (p : Polynomial) (cs : list PolyCall) : outcome Polynomial :=
  match cs with
  | [] => Ok p
  | c :: cs => do p <- poly_call store p c; poly_run store p cs
  end.

End Poly.

Arguments Polynomial : clear implicits.
Arguments PolyCall : clear implicits.
