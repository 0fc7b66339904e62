(** Specification of the messages of Validate functions that change an object or may fail. *)
From Coq Require Import ZArith Bool List String.
From Verif Require Import Num ModelValidate SpecValidate.
Import ListNotations.
Open Scope list_scope.

(** A Validate function that ends as [r] tells, whatever list it is given: with the result
    and the object of [r], and the messages [extra] appended to the list. *)
Definition reports {S : Type} (v : Messages -> outcome (Check * S)) (r : outcome (bool * S)) (extra : list Message) : Prop :=
  forall m, v m = match r with Ok (ok, s) => Ok ((ok, with_more extra m), s) | Throw => Throw | UB => UB end.

(** The same for a function that changes nothing. *)
Definition reports_only (v : Messages -> outcome Check) (r : outcome bool) (extra : list Message) : Prop :=
  forall m, v m = match r with Ok ok => Ok (ok, with_more extra m) | Throw => Throw | UB => UB end.

(** What holds of the answer of a function that is given an empty list. *)
Definition holds {S : Type} (P : bool -> list Message -> Prop) (v : Messages -> outcome (Check * S)) : Prop :=
  forall ok e s, v (Some []) = Ok ((ok, Some e), s) -> P ok e.
Definition holds_only (P : bool -> list Message -> Prop) (v : Messages -> outcome Check) : Prop :=
  forall ok e, v (Some []) = Ok (ok, Some e) -> P ok e.

(** Every message has a title and a description. *)
Definition worded (ok : bool) (extra : list Message) : Prop :=
  forall x, In x extra -> em_title x <> ""%string /\ em_description x <> ""%string.

(** No message is there twice. *)
Definition distinct (ok : bool) (extra : list Message) : Prop := NoDup extra.

(** The messages of [a] are among those of [b], in the same order. *)
Inductive within : list Message -> list Message -> Prop :=
| within_nil : forall b, within [] b
| within_same : forall x a b, within a b -> within (x :: a) (x :: b)
| within_more : forall x a b, within a b -> within a (x :: b).
