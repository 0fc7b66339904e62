(** Model of /repo/src/transmissionline/alignment.cc.  No proofs in this file. *)
From Coq Require Import ZArith Bool List.
From Verif Require Import Num ModelBase.
Import ListNotations.
Open Scope num_scope.

(** std::list / std::vector primitives used by the code. *)

(** list::insert before position n *)
Definition insert_at {A : Type} (n : nat) (x : A) (l : list A) : list A :=
  firstn n l ++ x :: skipn n l.

(** list::erase at position n *)
Definition remove_at {A : Type} (n : nat) (l : list A) : list A :=
  firstn n l ++ skipn (S n) l.

(** *std::next(begin, i): dereferencing outside the list is undefined *)
Definition next_deref {A : Type} (l : list A) (i : Z) : outcome A :=
  if (i <? 0)%Z then UB
  else match nth_error l (Z.to_nat i) with Some a => Ok a | None => UB end.

(** vector::at: the index is converted to an unsigned type, out of range throws *)
Definition vec_at {A : Type} (l : list A) (i : Z) : outcome A :=
  if (i <? 0)%Z then Throw
  else match nth_error l (Z.to_nat i) with Some a => Ok a | None => Throw end.

(** list::front, list::back: undefined on an empty list *)
Definition front {A : Type} (l : list A) : outcome A :=
  match l with [] => UB | a :: _ => Ok a end.
Definition back {A : Type} (l : list A) : outcome A :=
  match l with [] => UB | a :: t => Ok (last t a) end.

(** 0 <= index && index < size: alignment.cc 185-188, line_cable.cc 339-342,
    transmission_line.cc 625-633 *)
Definition valid_index {A : Type} (l : list A) (i : Z) : bool :=
  ((0 <=? i) && (i <? Z.of_nat (length l)))%Z%bool.

Section Alignment.
Context {N : Num}.

(** include/models/transmissionline/alignment.h 16-50 *)
Record AlignmentPoint : Type := mkAP {
  ap_elevation : N; ap_rotation : N; ap_station : N }.

(** alignment.cc 8-12: default constructor *)
Definition AlignmentPoint_default : AlignmentPoint := mkAP ferr ferr ferr.

(** alignment.cc 17-53; messages not modelled *)
Definition AlignmentPoint_Validate (p : AlignmentPoint) : bool :=
  negb (ap_elevation p <? #0)
  && negb (#360 <? fabs (ap_rotation p))
  && negb (ap_station p <? #0).

(** alignment.cc 63-76: the search loop; [None] is the early return -1 *)
Fixpoint AddPoint_search (point : AlignmentPoint) (points : list AlignmentPoint)
    (pos : nat) : option nat :=
  match points with
  | [] => Some pos
  | point_list :: rest =>
      if ap_station point <? ap_station point_list then Some pos
      else if ap_station point =? ap_station point_list then None
      else AddPoint_search point rest (S pos)
  end.

(** alignment.cc 62-83.  After the insertion [iter] still designates the
    element that follows the new one, hence the distance minus one. *)
Definition AddPoint (points : list AlignmentPoint) (point : AlignmentPoint)
    : list AlignmentPoint * Z :=
  match AddPoint_search point points 0 with
  | None => (points, -1)%Z
  | Some pos => (insert_at pos point points, Z.of_nat (S pos) - 1)%Z
  end.

(** alignment.cc 85-96 *)
Definition DeletePoint (points : list AlignmentPoint) (index : Z)
    : list AlignmentPoint * bool :=
  if valid_index points index then (remove_at (Z.to_nat index) points, true)
  else (points, false).

(** alignment.cc 124-131 *)
Definition IsValidStation (points : list AlignmentPoint) (station : N) : outcome bool :=
  do point_front <- front points;
  do point_back <- back points;
  Ok ((ap_station point_front <=? station) && (station <=? ap_station point_back)).

(** alignment.cc 109-118: the search loop *)
Fixpoint IndexSegment_search (station : N) (points : list AlignmentPoint) (pos : nat) : nat :=
  match points with
  | [] => pos
  | point :: rest =>
      if station <=? ap_station point then pos
      else IndexSegment_search station rest (S pos)
  end.

(** alignment.cc 98-122 *)
Definition IndexSegment (points : list AlignmentPoint) (station : N) : outcome Z :=
  do valid <- IsValidStation points station;
  if negb valid then Ok (-1)%Z
  else
    do point_front <- front points;
    if station =? ap_station point_front then Ok 0%Z
    else Ok (Z.of_nat (IndexSegment_search station points 0) - 1)%Z.

(** alignment.cc 133-153.  The dereference at 140 is in range because of the
    check at 135, so no outcome is needed. *)
Definition ModifyPoint (points : list AlignmentPoint) (index : Z) (point : AlignmentPoint)
    : list AlignmentPoint * Z :=
  if valid_index points index then
    let point_cache := nth (Z.to_nat index) points AlignmentPoint_default in
    let (points1, deleted) := DeletePoint points index in
    if negb deleted then (points1, -1)%Z
    else
      let (points2, status) := AddPoint points1 point in
      if (status =? -1)%Z then (fst (AddPoint points2 point_cache), status)
      else (points2, status)
  else (points, -1)%Z.

(** alignment.cc 155-179; the sorting check only composes a message *)
Definition Alignment_Validate (points : list AlignmentPoint) : bool :=
  forallb AlignmentPoint_Validate points.

(** The calls of the class that change the alignment, as one step. *)
Inductive AlignmentCall : Type :=
| CallAddPoint (point : AlignmentPoint)
| CallDeletePoint (index : Z)
| CallModifyPoint (index : Z) (point : AlignmentPoint).

(** Effect of one call of alignment.cc 62-153 on the point list. *)
Definition alignment_step (points : list AlignmentPoint) (c : AlignmentCall)
    : list AlignmentPoint :=
  match c with
  | CallAddPoint p => fst (AddPoint points p)
  | CallDeletePoint i => fst (DeletePoint points i)
  | CallModifyPoint i p => fst (ModifyPoint points i p)
  end.

(** A history of calls from the empty alignment (alignment.cc 56-57). *)
Definition alignment_run (calls : list AlignmentCall) : list AlignmentPoint :=
  fold_left alignment_step calls [].

End Alignment.
Arguments AlignmentPoint : clear implicits.
Arguments AlignmentCall : clear implicits.
