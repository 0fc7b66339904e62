(** Lines with all lengths multiplied, as in another unit of length (transmission_line.cc,
    alignment.cc, base/vector.cc), for all lines whose coordinates have to be calculated
    anew, in exact arithmetic. *)
From Coq Require Import ZArith Bool List Reals Lra.
From Verif Require Import Num NumFacts ModelBase ModelAlignment ModelLine SpecDatum SpecResize ProofReal ProofThermalReal ProofDatum ProofResize PropDatum.
Import ListNotations.
Open Scope R_scope.

(** C174 *)
Theorem line_resized : forall P (k : R) (l l' : @Line RNum P),
  0 < k -> unanswered l -> unanswered l' -> resized k l l' ->
  same_outcome (fun x y => y = option_map (map (times k)) x) (snd (PointsXyzAlignment l)) (snd (PointsXyzAlignment l')) /\
  same_outcome (grown_list k) (snd (PointsXyzLineStructures l)) (snd (PointsXyzLineStructures l')) /\
  (forall x : R, same_outcome (grown k) (snd (PointXyzAlignment l x)) (snd (PointXyzAlignment l' (k * x : R)))) /\
  (forall i, same_outcome (grown k) (snd (PointXyzLineStructure l i)) (snd (PointXyzLineStructure l' i))) /\
  (forall i j, same_outcome (grown k)
    (snd (PointXyzLineStructureAttachment l i j)) (snd (PointXyzLineStructureAttachment l' i j))).
Proof.
  intros P k l l' K U U' D.
  exact (conj (resize_alignment k K l l' U U' D) (conj (resize_structures k K l l' U U' D)
    (conj (resize_station k K l l' U U' D) (conj (resize_structure k K l l' U U' D) (resize_attachment k K l l' U U' D))))).
Qed.
Print Assumptions line_resized.

(** The line of C172 drawn in centimeters instead of meters. *)
Definition drawn_larger : @Line RNum unit :=
  mkLine (N := RNum) (map (resized_point 100) (tl_alignment drawn)) []
    (map (fun n => (fst n, resized_line_structure 100 (snd n))) (tl_line_structures drawn))
    (times 100 (tl_origin drawn)) false false [] [] 2.
Example line_resized_case : resized 100 drawn drawn_larger /\ unanswered drawn /\ unanswered drawn_larger /\
  exists p q r, snd (PointsXyzAlignment drawn) = Ok (Some [p; q; r]) /\
    snd (PointsXyzAlignment drawn_larger) = Ok (Some (map (times 100) [p; q; r])).
Proof.
  assert (D : resized 100 drawn drawn_larger) by (split; reflexivity).
  split; [exact D|]. split; [split; reflexivity|]. split; [split; reflexivity|].
  destruct line_datum_case as (_ & p & q & r & E & _). exists p, q, r. split; [exact E|].
  destruct (line_resized unit 100 drawn drawn_larger ltac:(lra) ltac:(split; reflexivity) ltac:(split; reflexivity) D) as (T & _).
  rewrite E in T. destruct (snd (PointsXyzAlignment drawn_larger)) as [y| |]; cbn [same_outcome] in T; try contradiction T.
  rewrite T. reflexivity.
Qed.
