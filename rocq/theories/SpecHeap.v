(** What a client of Polynomial does, and what it has to avoid. *)
From Coq Require Import ZArith Bool List.
From Verif Require Import Num ModelPolynomial ModelHeap.
Import ListNotations.
Open Scope Z_scope.

Section Spec.
Context {N : Num}.

(** The polynomial that is asked for its slope or its derivative, for x, or to validate. *)
Definition asked (c : HeapCall N) : list Z :=
  match c with HSlope i _ | HX i _ _ _ | HValidate i | HDerivative i => [i] | _ => [] end.

(** No polynomial that was asked before is copied, or takes part in an assignment. *)
Fixpoint careful (before : list Z) (cs : list (HeapCall N)) : Prop :=
  match cs with
  | [] => True
  | c :: cs =>
      match c with
      | HCopy i => ~ In i before
      | HAssign i j => ~ In i before /\ ~ In j before
      | _ => True
      end /\ careful (asked c ++ before) cs
  end.

(** The call does not set, assign to or destroy the polynomial [i]. *)
Definition leaves (i : Z) (c : HeapCall N) : Prop :=
  match c with HSet j _ | HDestroy j | HAssign j _ => j <> i | _ => True end.

(** A polynomial that lives, and a coefficient pointer that is set and does not dangle. *)
Definition lives (m : Memory N) (i : Z) : Prop := me_polynomials m i <> None.
Definition readable (m : Memory N) (i : Z) : Prop :=
  exists o, me_polynomials m i = Some o /\
    match ob_coefficients o with
    | VClient a => me_vectors m a <> None
    | VDerivative j => lives m j
    | _ => False
    end.
End Spec.
