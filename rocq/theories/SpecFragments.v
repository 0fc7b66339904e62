(** Notions for what is true of properties that are false in general. *)
From Coq Require Import ZArith Bool List.
From Verif Require Import Num ModelBase ModelPolynomial.
Import ListNotations.

(** A history of one polynomial in which the vectors may be changed between the calls: each
    call comes with the content of the vectors at that time. *)
Fixpoint poly_history {N : Num} (p : Polynomial N) (hs : list ((addr -> list N) * PolyCall N)) : outcome (Polynomial N) :=
  match hs with
  | [] => Ok p
  | (store, k) :: hs => do p <- poly_call store p k; poly_history p hs
  end.

(** Whether the derivative was asked for, by Slope, X, Derivative or Validate, after the last
    vector was set. *)
Fixpoint derived {N : Num} (asked : bool) (ks : list (PolyCall N)) : bool :=
  match ks with
  | [] => asked
  | PSet _ :: ks => derived false ks
  | PY _ :: ks => derived asked ks
  | _ :: ks => derived true ks
  end.
