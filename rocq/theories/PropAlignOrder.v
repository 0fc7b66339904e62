(** Properties C192 and C193: the order of adding alignment points does not
    matter, and every successful change of an alignment can be undone. *)
From Coq Require Import ZArith Bool List Lia Permutation.
From Flocq Require Import IEEE754.BinarySingleNaN.
From Verif Require Import Num NumFacts ModelBase ModelAlignment SpecLine ProofAlignment PropAlignment ProofAlignOrder.
Import ListNotations.

(** C192 *)
Theorem alignment_any_order :
  forall lm (ps qs : list (AlignmentPoint (B64 lm))),
    (forall p, In p ps -> num64 (ap_station p)) ->
    (forall i j p q, i <> j -> nth_error ps i = Some p -> nth_error ps j = Some q ->
       feqb (ap_station p) (ap_station q) = false) ->
    Permutation ps qs ->
    alignment_run (map CallAddPoint ps) = alignment_run (map CallAddPoint qs) /\
    Permutation (alignment_run (map CallAddPoint ps)) ps.
Proof. exact (fun lm => @adds_any_order (B64 lm) num64 (B64_ord lm)). Qed.
Print Assumptions alignment_any_order.

(** C193 *)
Theorem alignment_changes_undone :
  forall lm (calls : list (AlignmentCall (B64 lm))),
    stations_numeric lm calls ->
    let points := alignment_run calls in
    (forall p, snd (AddPoint points p) <> (-1)%Z ->
       DeletePoint (fst (AddPoint points p)) (snd (AddPoint points p)) = (points, true)) /\
    (forall i old, (0 <= i)%Z -> nth_error points (Z.to_nat i) = Some old ->
       snd (DeletePoint points i) = true /\
       AddPoint (fst (DeletePoint points i)) old = (points, i)) /\
    (forall i old p, (0 <= i)%Z -> nth_error points (Z.to_nat i) = Some old ->
       snd (ModifyPoint points i p) <> (-1)%Z ->
       ModifyPoint (fst (ModifyPoint points i p)) (snd (ModifyPoint points i p)) old
       = (points, i)).
Proof.
  exact (fun lm calls H =>
    conj (add_undone (alignment_run calls))
   (conj (fun i old => @delete_undone (B64 lm) num64 (B64_ord lm) (alignment_run calls) i old
            (stations_numeric_ok lm calls H))
         (fun i old p => @modify_undone (B64 lm) num64 (B64_ord lm) (alignment_run calls) i p old
            (stations_numeric_ok lm calls H)))).
Qed.
Print Assumptions alignment_changes_undone.

Section Example_order.
Variable lm : Libm.
Let pt (z : Z) : AlignmentPoint (B64 lm) := mkAP (fofZ 0) (fofZ 0) (fofZ z).
Let ps := [pt 100; pt 0; pt 50].
Let qs := [pt 50; pt 100; pt 0].

Example alignment_any_order_case :
  (forall p, In p ps -> num64 (ap_station p)) /\
  (forall i j p q, i <> j -> nth_error ps i = Some p -> nth_error ps j = Some q ->
     feqb (ap_station p) (ap_station q) = false) /\
  Permutation ps qs /\
  alignment_run (map CallAddPoint ps) = [pt 0; pt 50; pt 100] /\
  alignment_run (map CallAddPoint qs) = [pt 0; pt 50; pt 100].
Proof.
  split; [|split; [|split; [|split]]].
  - intros p [<-|[<-|[<-|[]]]]; vm_compute; reflexivity.
  - apply apart_three; vm_compute; reflexivity.
  - change qs with ([pt 50] ++ [pt 100; pt 0]). change ps with ([pt 100; pt 0] ++ [pt 50]).
    apply Permutation_app_comm.
  - reflexivity.
  - reflexivity.
Qed.

Example alignment_changes_undone_case :
  stations_numeric lm (map CallAddPoint ps) /\
  snd (AddPoint (alignment_run (map CallAddPoint ps)) (pt 70)) = 2%Z /\
  nth_error (alignment_run (map CallAddPoint ps)) 1 = Some (pt 50) /\
  snd (ModifyPoint (alignment_run (map CallAddPoint ps)) 1 (pt 200)) = 2%Z /\
  ModifyPoint (fst (ModifyPoint (alignment_run (map CallAddPoint ps)) 1 (pt 200))) 2 (pt 50)
  = ([pt 0; pt 50; pt 100], 1%Z).
Proof.
  split; [|repeat split; reflexivity].
  intros c [<-|[<-|[<-|[]]]]; vm_compute; reflexivity.
Qed.
End Example_order.
