(** The same line with all lengths multiplied, as in another unit of length. *)
From Coq Require Import ZArith List Reals.
From Verif Require Import Num ModelBase ModelAlignment ModelLine SpecDatum.
Open Scope R_scope.

Definition times (k : R) (p : Point3d RNum) : Point3d RNum := mkPoint3d (N := RNum) (k * p3x p) (k * p3y p) (k * p3z p).

Definition resized_point (k : R) (p : AlignmentPoint RNum) : AlignmentPoint RNum :=
  mkAP (N := RNum) (k * ap_elevation p) (ap_rotation p) (k * ap_station p).

Definition resized_attachment (k : R) (a : StructureAttachment RNum) : StructureAttachment RNum :=
  mkAttachment (N := RNum) (k * sa_offset_longitudinal a) (k * sa_offset_transverse a) (k * sa_offset_vertical_top a).

Definition resized_structure (k : R) (s : Structure RNum) : Structure RNum :=
  mkStructure (N := RNum) (map (resized_attachment k) (st_attachments s)) (k * st_height s).

Definition resized_line_structure (k : R) (t : LineStructure RNum) : LineStructure RNum :=
  mkLS (N := RNum) (ls_hardwares t) (k * ls_height_adjustment t) (k * ls_offset t) (ls_rotation t) (k * ls_station t)
    (option_map (resized_structure k) (ls_structure t)).

(** [l'] is [l] with all lengths multiplied by [k]; nothing is said about the cables. *)
Record resized {P} (k : R) (l l' : @Line RNum P) : Prop := {
  rz_alignment : tl_alignment l' = map (resized_point k) (tl_alignment l);
  rz_structures : map snd (tl_line_structures l') = map (fun n => resized_line_structure k (snd n)) (tl_line_structures l);
  rz_origin : tl_origin l' = times k (tl_origin l)
}.

(** [y] is [x] in the other unit, or both are the point that stands for an error. *)
Definition grown (k : R) (x y : Point3d RNum) : Prop :=
  y = times k x \/ (x = Point3d_default /\ y = Point3d_default).

Definition grown_list (k : R) (x y : option (list (Point3d RNum))) : Prop :=
  match x, y with Some a, Some b => Forall2 (grown k) a b | None, None => True | _, _ => False end.
