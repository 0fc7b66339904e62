(** Model of /repo/src/base/polynomial.cc with the objects in memory: construction, the
    implicit copy constructor and assignment of include/models/base/polynomial.h, and the
    destructor.  ModelPolynomial.v models the queries of one polynomial that is not copied.

    Every object gets a new number that is not used again, so an access to an object that
    was destroyed is seen; in the code its memory may hold anything. *)
From Coq Require Import ZArith Bool List.
From Verif Require Import Num ModelBase ModelPolynomial.
Import ListNotations.
Open Scope num_scope.

Section Heap.
Context {N : Num}.

(** What polynomial.h 101 (coefficients_) points to: a vector of the client, or the member
    coefficients_derivative_ of a polynomial. *)
Inductive vptr : Type := VUninit | VNull | VClient (a : Z) | VDerivative (i : Z).

(** polynomial.h 99-115: the members.  [ob_derivative] is the number of *derivative_. *)
Record Object : Type := mkObject {
  ob_coefficients : vptr;
  ob_coefficients_derivative : list N;
  ob_derivative : option Z;
  ob_updated : bool
}.

(** The memory: vectors of the client, polynomials of the client, and the polynomials made
    by [new] (polynomial.cc 177).  Of the latter only the pointer coefficients_ is kept:
    their derivative_ stays null, because they are only asked for Y (47, 110). *)
Record Memory : Type := mkMemory {
  me_vectors : Z -> option (list N);
  me_polynomials : Z -> option Object;
  me_derivatives : Z -> option vptr;
  me_next : Z
}.

(** Writing an entry of a part of the memory (no code). *)
Definition put {A} (f : Z -> option A) (i : Z) (x : option A) : Z -> option A := fun j => if (j =? i)%Z then x else f j.

(** Writing a polynomial (no code). *)
Definition me_set (m : Memory) (i : Z) (o : option Object) : Memory :=
  mkMemory (me_vectors m) (put (me_polynomials m) i o) (me_derivatives m) (me_next m).

(** An access to a polynomial of the client; undefined if it does not live. *)
Definition me_get (m : Memory) (i : Z) : outcome Object := match me_polynomials m i with Some o => Ok o | None => UB end.

(** An access to the vector behind coefficients_. *)
Definition me_read (m : Memory) (p : vptr) : outcome (list N) :=
  match p with
  | VUninit | VNull => UB
  | VClient a => match me_vectors m a with Some l => Ok l | None => UB end
  | VDerivative i => do o <- me_get m i; Ok (ob_coefficients_derivative o)
  end.

(** delete derivative_ (polynomial.cc 22, 176); its own derivative_ is null *)
Definition me_delete (m : Memory) (d : option Z) : outcome Memory :=
  match d with
  | None => Ok m
  | Some d =>
      match me_derivatives m d with
      | Some _ => Ok (mkMemory (me_vectors m) (me_polynomials m) (put (me_derivatives m) d None) (me_next m))
      | None => UB
      end
  end.

(** A new polynomial with the given members. *)
Definition me_create (m : Memory) (o : Object) : Memory :=
  mkMemory (me_vectors m) (put (me_polynomials m) (me_next m) (Some o)) (me_derivatives m) (me_next m + 1).

(** polynomial.cc 10-13 *)
Definition me_default (m : Memory) : Memory := me_create m (mkObject VUninit [] None false).
(** polynomial.cc 15-19 *)
Definition me_new (m : Memory) (p : vptr) : Memory := me_create m (mkObject p [] None false).
(** The implicit copy constructor: memberwise (polynomial.h declares none). *)
Definition me_copy (m : Memory) (i : Z) : outcome Memory := do o <- me_get m i; Ok (me_create m o).
(** The implicit assignment [i = j]: memberwise (polynomial.h declares none). *)
Definition me_assign (m : Memory) (i j : Z) : outcome Memory :=
  do o <- me_get m j; do _ <- me_get m i; Ok (me_set m i (Some o)).
(** polynomial.cc 21-23 *)
Definition me_destroy (m : Memory) (i : Z) : outcome Memory :=
  do o <- me_get m i; do m <- me_delete m (ob_derivative o); Ok (me_set m i None).
(** polynomial.cc 140-144 *)
Definition me_set_coefficients (m : Memory) (i : Z) (p : vptr) : outcome Memory :=
  do o <- me_get m i;
  Ok (me_set m i (Some (mkObject p (ob_coefficients_derivative o) (ob_derivative o) false))).

(** polynomial.cc 162-181 after 150-160 and IsUpdated (146-148): delete the old derivative,
    make a new one that points to the own coefficients_derivative_.  If coefficients_ points
    to the own coefficients_derivative_, line 166 clears what line 169 reads: out of range,
    unless both are empty. *)
Definition me_update (m : Memory) (i : Z) : outcome Memory :=
  do o <- me_get m i;
  if ob_updated o then Ok m
  else
    do l <- me_read m (ob_coefficients o);
    if match ob_coefficients o with VDerivative j => (j =? i)%Z && negb (Nat.leb (length l) 1) | _ => false end then Throw
    else
    let dl := match ob_coefficients o with VDerivative j => if (j =? i)%Z then [] else derivative_loop l 0 | _ => derivative_loop l 0 end in
    do m <- me_delete m (ob_derivative o);
    let d := me_next m in
    Ok (mkMemory (me_vectors m) (put (me_polynomials m) i (Some (mkObject (ob_coefficients o) dl (Some d) true)))
                 (put (me_derivatives m) d (Some (VDerivative i))) (d + 1)).

(** derivative_->Y(x) (polynomial.cc 47, 110): the coefficients it uses *)
Definition me_slopes (m : Memory) (i : Z) : outcome (list N) :=
  do o <- me_get m i;
  match ob_derivative o with
  | None => UB
  | Some d => match me_derivatives m d with None => UB | Some p => me_read m p end
  end.

(** polynomial.cc 124-134 *)
Definition me_Y (m : Memory) (i : Z) (x : N) : outcome N := do o <- me_get m i; do l <- me_read m (ob_coefficients o); Ok (Y_list l x).

(** polynomial.cc 41-48 *)
Definition me_Slope (m : Memory) (i : Z) (x : N) : outcome (N * Memory) :=
  do m <- me_update m i; do l <- me_slopes m i; Ok (Y_list l x, m).

(** polynomial.cc 25-35: the returned polynomial is a copy of *derivative_ *)
Definition me_Derivative (m : Memory) (i : Z) : outcome Memory :=
  do m <- me_update m i; do o <- me_get m i;
  match ob_derivative o with
  | None => UB
  | Some d => match me_derivatives m d with None => UB | Some p => Ok (me_create m (mkObject p [] None false)) end
  end.

(** polynomial.cc 50-79 *)
Definition me_Validate (m : Memory) (i : Z) : outcome (bool * Memory) :=
  do o <- me_get m i;
  match ob_coefficients o with
  | VUninit => UB
  | VNull => Ok (false, m)
  | _ => do m <- me_update m i; Ok (true, m)
  end.

(** polynomial.cc 83-122 *)
Definition me_X (m : Memory) (i : Z) (y : N) (decimal_precision_y : Z) (x_guess : N) : outcome (N * Memory) :=
  do m <- me_update m i; do o <- me_get m i; do l <- me_read m (ob_coefficients o);
  match l with
  | [] => Throw
  | c :: r =>
      do d <- me_slopes m i;
      Ok (X_loop 100 (#1 / fpow #10 #decimal_precision_y) (c - y :: r) d x_guess ferr x_guess, m)
  end.

(** What a client does: the numbers name polynomials and vectors. *)
Inductive HeapCall : Type :=
| HVector (a : Z) (l : option (list N))
| HDefault
| HNew (p : vptr)
| HCopy (i : Z)
| HAssign (i j : Z)
| HDestroy (i : Z)
| HSet (i : Z) (p : vptr)
| HY (i : Z) (x : N)
| HSlope (i : Z) (x : N)
| HX (i : Z) (y : N) (precision : Z) (guess : N)
| HValidate (i : Z)
| HDerivative (i : Z).

(** The memory after a call.  [HVector a l] makes, changes or destroys a vector of the
    client.  An exception of X leaves what Update did. *)
Definition heap_call (m : Memory) (c : HeapCall) : outcome Memory :=
  match c with
  | HVector a l => Ok (mkMemory (put (me_vectors m) a l) (me_polynomials m) (me_derivatives m) (me_next m))
  | HDefault => Ok (me_default m)
  | HNew p => Ok (me_new m p)
  | HCopy i => me_copy m i
  | HAssign i j => me_assign m i j
  | HDestroy i => me_destroy m i
  | HSet i p => me_set_coefficients m i p
  | HY i x => do _ <- me_Y m i x; Ok m
  | HSlope i x => omap snd (me_Slope m i x)
  | HX i y n g =>
      match me_X m i y n g with
      | Ok (_, m) => Ok m
      | Throw => me_update m i
      | UB => UB
      end
  | HValidate i => omap snd (me_Validate m i)
  | HDerivative i => me_Derivative m i
  end.

(** Calls one after the other. *)
Fixpoint heap_run (m : Memory) (cs : list HeapCall) : outcome Memory :=
  match cs with
  | [] => Ok m
  | c :: cs => do m <- heap_call m c; heap_run m cs
  end.

(** The memory before the first call; objects are numbered from 0. *)
Definition Memory_empty : Memory := mkMemory (fun _ => None) (fun _ => None) (fun _ => None) 0.

End Heap.

Arguments Object : clear implicits.
Arguments Memory : clear implicits.
Arguments HeapCall : clear implicits.
