(** Specification vocabulary for the alignment and the transmission line.
    Nothing here refers to the functions of the model. *)
From Coq Require Import ZArith Bool List.
From Verif Require Import Num.
Import ListNotations.
Open Scope num_scope.

Section Spec.
Context {N : Num}.

(** The numbers of a list are strictly increasing. *)
Definition strictly_increasing (l : list N) : Prop :=
  forall i j a b, (i < j)%nat ->
    nth_error l i = Some a -> nth_error l j = Some b -> (a <? b) = true.

End Spec.

(** [l'] is [l] with [x] put at position [i]. *)
Definition is_insertion {A : Type} (l : list A) (i : Z) (x : A) (l' : list A) : Prop :=
  exists l1 l2, l = l1 ++ l2 /\ l' = l1 ++ x :: l2 /\ i = Z.of_nat (length l1).

(** [l'] is [l] without its element [x] of position [i]. *)
Definition is_removal {A : Type} (l : list A) (i : Z) (x : A) (l' : list A) : Prop :=
  is_insertion l' i x l.
