(** Properties C19, C20, C60, C61, in exact real arithmetic. *)
From Coq Require Import ZArith Bool List Reals Lra Lia.
From Verif Require Import Num NumFacts ModelBase ModelAlignment ModelLine SpecTransmission SpecVector SpecGeom
  ProofReal ProofVector ProofLineGeom ProofLineAttach.
Import ListNotations.
Open Scope R_scope.

(** C19: there is one coordinate per alignment point and the first is the origin. *)
Theorem alignment_coordinates_start_at_origin :
  forall P (l : Line RNum P), reachable (N := RNum) (fun _ => True) l -> (2 <= length (tl_alignment l))%nat ->
    exists pts, snd (PointsXyzAlignment l) = Ok (Some pts) /\ length pts = length (tl_alignment l) /\
      nth_error pts 0 = Some (tl_origin l).
Proof. exact (fun P l => @geom_total P l). Qed.
Print Assumptions alignment_coordinates_start_at_origin.

(** C19: horizontal distances are station differences and vertical ones elevation
    differences. *)
Theorem alignment_coordinates_keep_distances :
  forall P (l : Line RNum P) pts i (a b : AlignmentPoint RNum) pa pb, reachable (N := RNum) (fun _ => True) l ->
    snd (PointsXyzAlignment l) = Ok (Some pts) ->
    nth_error (tl_alignment l) i = Some a -> nth_error (tl_alignment l) (S i) = Some b ->
    nth_error pts i = Some pa -> nth_error pts (S i) = Some pb ->
    sqrt ((p3x pb - p3x pa) * (p3x pb - p3x pa) + (p3y pb - p3y pa) * (p3y pb - p3y pa)) =
      ap_station b - ap_station a /\
    p3z pb - p3z pa = ap_elevation b - ap_elevation a.
Proof. exact (fun P l => @geom_steps P l). Qed.
Print Assumptions alignment_coordinates_keep_distances.

(** C20: the point of a station lies on the segment, at the proportional distance
    (at the ends, on the coordinates of the alignment points). *)
Theorem alignment_station_on_segment :
  forall P (l : Line RNum P) pts i (a b : AlignmentPoint RNum) pa pb (s : R),
    reachable (N := RNum) (fun _ => True) l ->
    snd (PointsXyzAlignment l) = Ok (Some pts) ->
    nth_error (tl_alignment l) i = Some a -> nth_error (tl_alignment l) (S i) = Some b ->
    nth_error pts i = Some pa -> nth_error pts (S i) = Some pb ->
    ap_station a <= s <= ap_station b ->
    exists p, snd (PointXyzAlignment (N := RNum) l s) = Ok p /\
      let t := (s - ap_station a) / (ap_station b - ap_station a) in
      p3x p = p3x pa + t * (p3x pb - p3x pa) /\ p3y p = p3y pa + t * (p3y pb - p3y pa) /\
      p3z p = p3z pa + t * (p3z pb - p3z pa).
Proof. exact (fun P l => @geom_station P l). Qed.
Print Assumptions alignment_station_on_segment.

(** C60: every segment is turned against the one before (the first one against the
    x axis) by the rotation of the alignment point between them. *)
Theorem alignment_rotations_turn_the_line :
  forall P (l : Line RNum P) pts i (a b : AlignmentPoint RNum) pa pb,
    reachable (N := RNum) (fun _ => True) l ->
    snd (PointsXyzAlignment l) = Ok (Some pts) ->
    nth_error (tl_alignment l) i = Some a -> nth_error (tl_alignment l) (S i) = Some b ->
    nth_error pts i = Some pa -> nth_error pts (S i) = Some pb ->
    exists phi ux uy,
      rotation_angle (ap_rotation a) phi /\
      match i with
      | O => ux = 1 /\ uy = 0
      | S j => exists z pz, nth_error (tl_alignment l) j = Some z /\ nth_error pts j = Some pz /\
          ux * (ap_station a - ap_station z) = p3x pa - p3x pz /\
          uy * (ap_station a - ap_station z) = p3y pa - p3y pz
      end /\
      turned (ux * (ap_station b - ap_station a)) (uy * (ap_station b - ap_station a)) phi
        (p3x pb - p3x pa) (p3y pb - p3y pa).
Proof. exact (fun P l => @geom_bearing P l). Qed.
Print Assumptions alignment_rotations_turn_the_line.

(** C61: on a line without earlier queries, a structure stands on the segment at
    its station.  Its attachment is above it by the adjusted height plus the
    vertical offset; the offsets are turned by the rotation of the structure,
    shifted by the offset of the structure and turned into the direction of the
    alignment (at an alignment point: the bisector), with an error of at most
    1e-6 radians. *)
Theorem structure_and_attachment_coordinates :
  forall P (l : Line RNum P) i (s : LineStructure RNum) k (a b : AlignmentPoint RNum) pts pa pb,
    reachable (N := RNum) (fun _ => True) l -> fresh_line l ->
    nth_error (structures_of l) i = Some s ->
    snd (PointsXyzAlignment l) = Ok (Some pts) ->
    nth_error (tl_alignment l) k = Some a -> nth_error (tl_alignment l) (S k) = Some b ->
    nth_error pts k = Some pa -> nth_error pts (S k) = Some pb ->
    ap_station a <= ls_station s <= ap_station b ->
    exists base, snd (PointXyzLineStructure l (Z.of_nat i)) = Ok base /\
      (let t := (ls_station s - ap_station a) / (ap_station b - ap_station a) in
       p3x base = p3x pa + t * (p3x pb - p3x pa) /\ p3y base = p3y pa + t * (p3y pb - p3y pa) /\
       p3z base = p3z pa + t * (p3z pb - p3z pa)) /\
      forall st j sa dx dy, ls_structure s = Some st -> nth_error (st_attachments st) j = Some sa ->
        direction_at (tl_alignment l) pts (ls_station s) dx dy -> dx <> 0 \/ dy <> 0 ->
        exists q t m phi psi x1 y1,
          snd (PointXyzLineStructureAttachment l (Z.of_nat i) (Z.of_nat j)) = Ok q /\
          p3z q = p3z base + (ls_height_adjustment s + st_height st + sa_offset_vertical_top sa) /\
          0 < m /\ dx = m * cos t /\ dy = m * sin t /\ Rabs (phi - t) <= 1 / 1000000 /\
          rotation_angle (ls_rotation s) psi /\
          turned (sa_offset_longitudinal sa) (- sa_offset_transverse sa) psi x1 y1 /\
          turned x1 (y1 - ls_offset s) phi (p3x q - p3x base) (p3y q - p3y base).
Proof. exact (fun P l => @attach_geom P l). Qed.
Print Assumptions structure_and_attachment_coordinates.

(** ** Concrete case: stations 0, 100, 250 with rotations 0, 30, -20, structures at
    40 and (on the alignment point) at 100.  It meets the hypotheses of all
    theorems above, including the bisector. *)
Example geometry_case : exists (l : Line RNum unit) pts p0 p1 p2,
  reachable (N := RNum) (fun _ => True) l /\ fresh_line l /\
  tl_alignment l = [gp 10 0 0; gp 20 30 100; gp 15 (-20) 250] /\ structures_of l = [g_ls 40; g_ls 100] /\
  snd (PointsXyzAlignment l) = Ok (Some pts) /\ pts = [p0; p1; p2] /\
  p3x p0 = 1000 /\ p3y p0 = 2000 /\ p3x p1 = 1100 /\ p3y p1 = 2000 /\ p3z p1 = 20 /\
  ls_structure (g_ls 100) = Some g_st /\ nth_error (st_attachments g_st) 0 <> None /\
  (exists dx dy, direction_at (tl_alignment l) pts 40 dx dy /\ (dx <> 0 \/ dy <> 0)) /\
  (exists dx dy, direction_at (tl_alignment l) pts 100 dx dy /\ (dx <> 0 \/ dy <> 0)).
Proof. exact geometry_case_fact. Qed.
