(** The same line with another origin, and with stations and elevations counted from
    another zero. *)
From Coq Require Import ZArith List Reals.
From Verif Require Import Num ModelBase ModelAlignment ModelLine.
Open Scope R_scope.

Definition shift (v p : Point3d RNum) : Point3d RNum :=
  mkPoint3d (N := RNum) (p3x p + p3x v) (p3y p + p3y v) (p3z p + p3z v).

(** No coordinates have been asked for since the origin or the alignment was changed. *)
Definition unanswered {P} (l : @Line RNum P) : Prop :=
  tl_is_updated_alignment l = false /\ tl_is_updated_structures l = false.

(** [l'] is [l] with [s] added to the stations, [e] to the elevations and [v] to the
    origin; nothing is said about the cables. *)
Record redrawn {P} (s e : R) (v : Point3d RNum) (l l' : @Line RNum P) : Prop := {
  rd_alignment : tl_alignment l' =
    map (fun p : AlignmentPoint RNum => mkAP (N := RNum) (ap_elevation p + e) (ap_rotation p) (ap_station p + s)) (tl_alignment l);
  rd_structures : map snd (tl_line_structures l') =
    map (fun n : nat * LineStructure RNum => mkLS (N := RNum) (ls_hardwares (snd n)) (ls_height_adjustment (snd n)) (ls_offset (snd n))
                    (ls_rotation (snd n)) (ls_station (snd n) + s) (ls_structure (snd n))) (tl_line_structures l);
  rd_origin : tl_origin l' = shift v (tl_origin l)
}.

(** [y] is [x] moved by [v], or both are the point that stands for an error. *)
Definition moved (v : Point3d RNum) (x y : Point3d RNum) : Prop :=
  y = shift v x \/ (x = Point3d_default /\ y = Point3d_default).

(** Both calls end in the same way, with related values. *)
Definition same_outcome {A B} (r : A -> B -> Prop) (x : outcome A) (y : outcome B) : Prop :=
  match x, y with Ok a, Ok b => r a b | Throw, Throw => True | UB, UB => True | _, _ => False end.

Definition moved_list (v : Point3d RNum) (x y : option (list (Point3d RNum))) : Prop :=
  match x, y with Some a, Some b => Forall2 (moved v) a b | None, None => True | _, _ => False end.
