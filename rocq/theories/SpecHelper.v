(** Specification of string comparison, splitting, rounding and interpolation. *)
From Coq Require Import ZArith List Ascii Reals.
Import ListNotations.

(** Dictionary order of strings whose characters are compared by [key]: a proper
    prefix comes first. *)
Inductive dict_less (key : ascii -> Z) : list ascii -> list ascii -> Prop :=
| dl_prefix : forall c r, dict_less key [] (c :: r)
| dl_here : forall c1 r1 c2 r2, (key c1 < key c2)%Z -> dict_less key (c1 :: r1) (c2 :: r2)
| dl_later : forall c1 r1 c2 r2, key c1 = key c2 -> dict_less key r1 r2 ->
    dict_less key (c1 :: r1) (c2 :: r2).

(** Equal up to case. *)
Definition same_fold (key : ascii -> Z) (s1 s2 : list ascii) : Prop := map key s1 = map key s2.

(** [s1] is the start of [s2], up to case. *)
Definition fold_prefix (key : ascii -> Z) (s1 s2 : list ascii) : Prop :=
  exists s, map key s2 = map key s1 ++ s.

(** The items with the delimiter between them. *)
Fixpoint join (d : ascii) (items : list (list ascii)) : list ascii :=
  match items with
  | [] => []
  | [i] => i
  | i :: rest => i ++ d :: join d rest
  end.

(** The items with the delimiter after each. *)
Definition terminated (d : ascii) (items : list (list ascii)) : list ascii :=
  flat_map (fun i => i ++ [d]) items.
