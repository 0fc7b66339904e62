(** Properties C01-C04: the alignment, for IEEE binary64 stations (not NaN). *)
From Coq Require Import ZArith Bool List Lia.
From Flocq Require Import IEEE754.BinarySingleNaN.
From Verif Require Import Num NumFacts ModelBase ModelAlignment SpecLine ProofAlignment.
Import ListNotations.

(** The stations handed to a history of calls are not NaN. *)
Definition stations_numeric (lm : Libm) (calls : list (AlignmentCall (B64 lm))) : Prop :=
  forall c, In c calls ->
    match c with
    | CallAddPoint p => num64 (ap_station p)
    | CallDeletePoint _ => True
    | CallModifyPoint _ p => num64 (ap_station p)
    end.

Lemma stations_numeric_ok : forall lm calls, stations_numeric lm calls ->
  @sorted_pts (B64 lm) num64 (alignment_run calls).
Proof.
  intros lm calls H. apply run_sorted; [apply B64_ord|].
  apply Forall_forall. intros c Hc. apply H in Hc. destruct c; exact Hc.
Qed.

(** C01 *)
Theorem alignment_stations_increase :
  forall lm (calls : list (AlignmentCall (B64 lm))),
    stations_numeric lm calls ->
    strictly_increasing (map ap_station (alignment_run calls)).
Proof.
  exact (fun lm calls H => proj2 (ListFacts.increasing_SS _) (proj2 (stations_numeric_ok lm calls H))).
Qed.
Print Assumptions alignment_stations_increase.

(** C02 *)
Theorem alignment_add_point_contract :
  forall lm (calls : list (AlignmentCall (B64 lm))) (p : AlignmentPoint (B64 lm)),
    stations_numeric lm calls -> num64 (ap_station p) ->
    let points := alignment_run calls in
    let (points', index) := AddPoint points p in
    (index = (-1)%Z <->
       exists q, In q points /\ feqb (ap_station p) (ap_station q) = true) /\
    (index = (-1)%Z -> points' = points) /\
    (index <> (-1)%Z -> is_insertion points index p points').
Proof.
  intros lm calls p H Hp points. rewrite (surjective_pairing (AddPoint points p)).
  exact (conj (@AddPoint_fail (B64 lm) num64 (B64_ord lm) points p (stations_numeric_ok lm calls H) Hp)
        (conj (AddPoint_fail_same points p) (AddPoint_success points p))).
Qed.
Print Assumptions alignment_add_point_contract.

(** C03 *)
Theorem alignment_modify_point_all_or_nothing :
  forall lm (calls : list (AlignmentCall (B64 lm))) (i : Z) (p : AlignmentPoint (B64 lm)),
    stations_numeric lm calls -> num64 (ap_station p) ->
    let points := alignment_run calls in
    let (points', index) := ModifyPoint points i p in
    (index = (-1)%Z <->
       ~ (0 <= i < Z.of_nat (length points))%Z \/
       exists j q, Z.of_nat j <> i /\ nth_error points j = Some q /\
         feqb (ap_station p) (ap_station q) = true) /\
    (index = (-1)%Z -> points' = points) /\
    (index <> (-1)%Z -> exists old mid,
       is_removal points i old mid /\ is_insertion mid index p points').
Proof.
  intros lm calls i p H Hp points. rewrite (surjective_pairing (ModifyPoint points i p)).
  exact (conj (@ModifyPoint_fail (B64 lm) num64 (B64_ord lm) points i p (stations_numeric_ok lm calls H) Hp)
        (conj (@ModifyPoint_fail_same (B64 lm) num64 (B64_ord lm) points i p (stations_numeric_ok lm calls H))
              (ModifyPoint_success points i p))).
Qed.
Print Assumptions alignment_modify_point_all_or_nothing.

(** C04 *)
Theorem alignment_index_segment :
  forall lm (calls : list (AlignmentCall (B64 lm))) (station : B64 lm) first last,
    stations_numeric lm calls -> num64 station ->
    let points := alignment_run calls in
    (2 <= length points)%nat ->
    nth_error points 0 = Some first ->
    nth_error points (length points - 1) = Some last ->
    exists i, IndexSegment points station = Ok i /\
      (i = (-1)%Z <-> (fltb station (ap_station first) = true \/
                       fltb (ap_station last) station = true)) /\
      (i <> (-1)%Z -> (0 <= i < Z.of_nat (length points) - 1)%Z /\
        exists a b, nth_error points (Z.to_nat i) = Some a /\
          nth_error points (Z.to_nat i + 1) = Some b /\
          fleb station (ap_station b) = true /\
          (fltb (ap_station a) station = true \/
           (i = 0%Z /\ feqb station (ap_station first) = true))).
Proof.
  exact (fun lm calls station first last H Hs Hlen Hf Hl =>
    @IndexSegment_spec (B64 lm) num64 (B64_ord lm) _ station first last
      (stations_numeric_ok lm calls H) Hs Hlen Hf Hl).
Qed.
Print Assumptions alignment_index_segment.

(** ** A concrete case: points at 100, 0, 50, then 50 moved to 60 and a
    rejected duplicate. *)
Section Example_alignment.
Variable lm : Libm.
Let pt (s : Z) : AlignmentPoint (B64 lm) := mkAP (fofZ 0) (fofZ 0) (fofZ s).
Let calls : list (AlignmentCall (B64 lm)) :=
  [CallAddPoint (pt 100); CallAddPoint (pt 0); CallAddPoint (pt 50);
   CallModifyPoint 1 (pt 60); CallAddPoint (pt 100); CallDeletePoint 7].

Example alignment_case_numeric : stations_numeric lm calls.
Proof.
  intros c Hc. simpl in Hc.
  repeat (destruct Hc as [<-|Hc]; [try exact I; reflexivity|]). destruct Hc.
Qed.

Example alignment_case_result :
  alignment_run calls = [pt 0; pt 60; pt 100] /\
  snd (AddPoint (alignment_run calls) (pt 70)) = 2%Z /\
  snd (AddPoint (alignment_run calls) (pt 60)) = (-1)%Z /\
  snd (ModifyPoint (alignment_run calls) 0 (pt 200)) = 2%Z /\
  snd (ModifyPoint (alignment_run calls) 0 (pt 60)) = (-1)%Z /\
  IndexSegment (alignment_run calls) (fofZ 60) = Ok 0%Z /\
  IndexSegment (alignment_run calls) (fofZ 61) = Ok 1%Z.
Proof. repeat split; vm_compute; reflexivity. Qed.
End Example_alignment.
