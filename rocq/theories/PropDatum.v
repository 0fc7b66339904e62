(** Lines with another origin and another zero of stations and elevations
    (transmission_line.cc, alignment.cc), for all lines whose coordinates have to be
    calculated anew, in exact arithmetic. *)
From Coq Require Import ZArith Bool List Reals Lra.
From Verif Require Import Num NumFacts ModelBase ModelAlignment ModelLine SpecDatum ProofReal ProofThermalReal ProofDatum.
Import ListNotations.
Open Scope R_scope.

Ltac reqb := repeat match goal with
  | |- context [Reqb ?a ?b] => rewrite (proj2 (Reqb_false a b)) by lra
  end.

(** C172 *)
Theorem line_datum : forall P (s e : R) v (l l' : @Line RNum P),
  unanswered l -> unanswered l' -> redrawn s e v l l' ->
  same_outcome (fun x y => y = option_map (map (shift v)) x) (snd (PointsXyzAlignment l)) (snd (PointsXyzAlignment l')) /\
  same_outcome (moved_list v) (snd (PointsXyzLineStructures l)) (snd (PointsXyzLineStructures l')) /\
  (forall x : R, same_outcome (moved v) (snd (PointXyzAlignment l x)) (snd (PointXyzAlignment l' (x + s : R)))) /\
  (forall i, same_outcome (moved v) (snd (PointXyzLineStructure l i)) (snd (PointXyzLineStructure l' i))) /\
  (forall i j, same_outcome (moved v)
    (snd (PointXyzLineStructureAttachment l i j)) (snd (PointXyzLineStructureAttachment l' i j))).
Proof.
  intros P s e v l l' U U' D.
  exact (conj (datum_alignment s e v l l' U U' D) (conj (datum_structures s e v l l' U U' D)
    (conj (datum_station s e v l l' U U' D) (conj (datum_structure s e v l l' U U' D) (datum_attachment s e v l l' U U' D))))).
Qed.
Print Assumptions line_datum.

(** A line with a bend and two structures, drawn again 1000 further along, 25 higher
    and from another origin. *)
Definition drawn_structure (station : R) : LineStructure RNum :=
  mkLS (N := RNum) [None] (1 : R) (2 : R) (0 : R) station
    (Some (mkStructure (N := RNum) [mkAttachment (N := RNum) (0 : R) (5 : R) (-10 : R)] (80 : R))).
Definition drawn : @Line RNum unit :=
  mkLine (N := RNum)
    [ mkAP (N := RNum) (10 : R) (0 : R) (0 : R); mkAP (N := RNum) (20 : R) (30 : R) (600 : R);
      mkAP (N := RNum) (15 : R) (0 : R) (1400 : R) ] []
    [ (0%nat, drawn_structure 100); (1%nat, drawn_structure 900) ]
    (mkPoint3d (N := RNum) (0 : R) (0 : R) (0 : R)) false false [] [] 2.
Definition drawn_again : @Line RNum unit :=
  mkLine (N := RNum)
    [ mkAP (N := RNum) (10 + 25 : R) (0 : R) (0 + 1000 : R); mkAP (N := RNum) (20 + 25 : R) (30 : R) (600 + 1000 : R);
      mkAP (N := RNum) (15 + 25 : R) (0 : R) (1400 + 1000 : R) ] []
    [ (5%nat, drawn_structure (100 + 1000)); (3%nat, drawn_structure (900 + 1000)) ]
    (mkPoint3d (N := RNum) (0 + 50 : R) (0 + -70 : R) (0 + 7 : R)) false false [] [] 6.
Example line_datum_case :
  same_outcome (moved (mkPoint3d (N := RNum) (50 : R) (-70 : R) (7 : R)))
    (snd (PointXyzLineStructureAttachment drawn 1 0)) (snd (PointXyzLineStructureAttachment drawn_again 1 0)) /\
  exists p q r, snd (PointsXyzAlignment drawn) = Ok (Some [p; q; r]) /\
    snd (PointsXyzAlignment drawn_again) =
      Ok (Some (map (shift (mkPoint3d (N := RNum) (50 : R) (-70 : R) (7 : R))) [p; q; r])).
Proof.
  assert (T := line_datum unit 1000 25 (mkPoint3d (N := RNum) (50 : R) (-70 : R) (7 : R)) drawn drawn_again).
  destruct T as (T1 & _ & _ & _ & T5); [split; reflexivity|split; reflexivity|split; reflexivity|].
  split; [apply T5|].
  assert (E : exists ps, snd (PointsXyzAlignment drawn) = Ok (Some ps) /\
    ps = PointsAlignment (tl_origin drawn) (tl_alignment drawn)).
  { unfold PointsXyzAlignment. rewrite query_fresh by (split; reflexivity). cbv zeta.
    set (pts := PointsAlignment (tl_origin drawn) (tl_alignment drawn)).
    assert (L : length pts = 3%nat) by reflexivity. clearbody pts.
    destruct pts as [|p [|q [|r [|x pts]]]]; try discriminate L. exists [p; q; r]. split; [|reflexivity].
    assert (X1 : IndexSegment (tl_alignment drawn) (100 : R) = Ok 0%Z).
    { unfold IndexSegment, IsValidStation, drawn. cbn [tl_alignment front back last obind ap_station IndexSegment_search]. rn.
      rdec. reqb. reflexivity. }
    assert (X2 : IndexSegment (tl_alignment drawn) (900 : R) = Ok 1%Z).
    { unfold IndexSegment, IsValidStation, drawn. cbn [tl_alignment front back last obind ap_station IndexSegment_search]. rn.
      rdec. reqb. reflexivity. }
    assert (Y1 : exists y, PointXyzAlignmentFromStation (tl_alignment drawn) [p; q; r] (100 : R) = Ok y).
    { unfold PointXyzAlignmentFromStation. rewrite X1. cbn [obind]. change (0 =? -1)%Z with false.
      change (vec_at [p; q; r] 0) with (Ok p). change (vec_at [p; q; r] (0 + 1)) with (Ok q). cbn [obind].
      change (next_deref (tl_alignment drawn) 0) with (Ok (mkAP (N := RNum) (10 : R) (0 : R) (0 : R))).
      change (next_deref (tl_alignment drawn) (0 + 1)) with (Ok (mkAP (N := RNum) (20 : R) (30 : R) (600 : R))).
      cbn [obind ap_station]. rn. reqb. eexists. reflexivity. }
    assert (Y2 : exists y, PointXyzAlignmentFromStation (tl_alignment drawn) [p; q; r] (900 : R) = Ok y).
    { unfold PointXyzAlignmentFromStation. rewrite X2. cbn [obind]. change (1 =? -1)%Z with false.
      change (vec_at [p; q; r] 1) with (Ok q). change (vec_at [p; q; r] (1 + 1)) with (Ok r). cbn [obind].
      change (next_deref (tl_alignment drawn) 1) with (Ok (mkAP (N := RNum) (20 : R) (30 : R) (600 : R))).
      change (next_deref (tl_alignment drawn) (1 + 1)) with (Ok (mkAP (N := RNum) (15 : R) (0 : R) (1400 : R))).
      cbn [obind ap_station]. rn. reqb. change (1 =? 0)%Z with false. unfold VectorXyAlignmentSegment.
      change (vec_at [p; q; r] (1 - 1)) with (Ok p). change (vec_at [p; q; r] (1 - 1 + 1)) with (Ok q). cbn [obind]. eexists. reflexivity. }
    destruct Y1 as (y1 & Y1), Y2 as (y2 & Y2).
    change (tl_line_structures drawn) with [ (0%nat, drawn_structure 100); (1%nat, drawn_structure 900) ].
    cbn [UpdatePointsXyzLineStructures_loop]. change (ls_station (drawn_structure 100)) with (100 : R).
    change (ls_station (drawn_structure 900)) with (900 : R). rewrite Y1, Y2. reflexivity. }
  destruct E as (ps & E & L). rewrite E in T1 |- *. assert (L' := f_equal (@length _) L).
  change (length (PointsAlignment (tl_origin drawn) (tl_alignment drawn))) with 3%nat in L'. clear L.
  destruct ps as [|p [|q [|r [|x ps]]]]; try discriminate L'. exists p, q, r. split; [reflexivity|].
  destruct (snd (PointsXyzAlignment drawn_again)) as [y| |]; cbn [same_outcome] in T1; try contradiction T1.
  rewrite T1. reflexivity.
Qed.
