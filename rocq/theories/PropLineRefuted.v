(** Properties that are false of the code, each with a witness: C06, C10, C12,
    C13, C14, C15 (the coordinates), C16, C58, C59.  What is true of them is in
    PropLineMore.v and PropLine.v.  Numbers are IEEE binary64. *)
From Coq Require Import ZArith Bool List Lia.
From Flocq Require Import IEEE754.BinarySingleNaN.
From Verif Require Import Num NumFacts ModelBase ModelAlignment ModelLine SpecLine SpecTransmission
  SampleLine ProofLineRefuted.
Import ListNotations.

(** C06: ModifyLineStructure accepts stations up to 1 beyond the alignment. *)
Theorem line_structures_on_alignment_refuted : forall lm,
  exists (l : Line (B64 lm) nat) s, reachable (N := B64 lm) num64 l /\ In s (structures_of l) /\
    ~ on_alignment (tl_alignment l) (ls_station s).
Proof.
  exact (fun lm => match w06_off lm with ex_intro _ s K =>
    ex_intro _ (the_line lm (w06 lm)) (ex_intro _ s (conj (w06_r lm) K)) end).
Qed.
Print Assumptions line_structures_on_alignment_refuted.

(** C10: the insertion test compares both indices with "and". *)
Theorem line_cables_in_order_refuted : forall lm,
  exists l : Line (B64 lm) nat, reachable (N := B64 lm) num64 l /\ ~ cables_in_order l.
Proof. exact (fun lm => ex_intro _ (the_line lm (w10 lm)) (conj (w10_r lm) (w10_order lm))). Qed.
Print Assumptions line_cables_in_order_refuted.

(** C12: an exception loses the cable that was to be modified. *)
Theorem line_modify_cable_throw_refuted : forall lm,
  exists (l l' : Line (B64 lm) nat) i lc, reachable (N := B64 lm) num64 l /\
    ModifyLineCable l i lc = (l', Throw) /\ length (tl_line_cables l) = 2%nat /\
    length (tl_line_cables l') = 1%nat.
Proof.
  exact (fun lm => ex_intro _ (the_line lm (w10 lm)) (ex_intro _ _ (ex_intro _ 0%Z
    (ex_intro _ (lc12a lm) (conj (w10_r lm)
      (conj (eq_trans (surjective_pairing _)
               (f_equal (pair _) (proj1 (w12_throw lm)))) (proj2 (w12_throw lm)))))))).
Qed.
Print Assumptions line_modify_cable_throw_refuted.

(** C12: the rollback can put the cable elsewhere. *)
Theorem line_modify_cable_order_refuted : forall lm,
  exists (l l' : Line (B64 lm) nat) i lc, reachable (N := B64 lm) num64 l /\
    ModifyLineCable l i lc = (l', Ok (-1)%Z) /\ tl_line_cables l' <> tl_line_cables l.
Proof.
  exact (fun lm => ex_intro _ (the_line lm (w10 lm)) (ex_intro _ _ (ex_intro _ 0%Z
    (ex_intro _ (lc12b lm) (conj (w10_r lm)
      (conj (eq_trans (surjective_pairing _)
               (f_equal (pair _) (proj1 (w12_moved lm)))) (proj2 (w12_moved lm)))))))).
Qed.
Print Assumptions line_modify_cable_order_refuted.

(** C13: after a query, added structures are not seen: one point is returned for
    two structures and the query for the second one throws, although a line
    built without the query returns two points. *)
Theorem line_structure_points_current_refuted : forall lm,
  exists l l0 : Line (B64 lm) nat, reachable (N := B64 lm) num64 l /\ fresh_line l0 /\
    tl_alignment l = tl_alignment l0 /\ tl_origin l = tl_origin l0 /\
    structures_of l = structures_of l0 /\
    (exists p, snd (PointsXyzLineStructures l) = Ok (Some p) /\ Z.of_nat (length p) = 1%Z) /\
    (exists p, snd (PointsXyzLineStructures l0) = Ok (Some p) /\ Z.of_nat (length p) = 2%Z) /\
    snd (PointXyzLineStructure l 1) = Throw.
Proof.
  exact (fun lm => ex_intro _ (the_line lm (w13 lm)) (ex_intro _ (the_line lm (w13_fresh lm))
    (conj (w13_r lm) (conj (w13_fresh_ok lm)
    (conj (proj1 (w13_same lm)) (conj (proj1 (proj2 (w13_same lm))) (conj (proj2 (proj2 (w13_same lm)))
    (conj (answer_spec _ _ _ (proj1 (w13_answers lm)) ltac:(lia))
    (conj (answer_spec _ _ _ (proj1 (proj2 (w13_answers lm))) ltac:(lia))
          (proj2 (proj2 (w13_answers lm)))))))))))).
Qed.
Print Assumptions line_structure_points_current_refuted.

(** C14: on an alignment of one point with a structure the first query throws and
    the second one answers. *)
Theorem line_alignment_points_current_refuted : forall lm,
  exists l : Line (B64 lm) nat, fresh_line l /\ reachable (N := B64 lm) num64 l /\
    snd (PointsXyzAlignment l) = Throw /\
    exists p, snd (PointsXyzAlignment (fst (PointsXyzAlignment l))) = Ok (Some p) /\
      Z.of_nat (length p) = 1%Z.
Proof.
  exact (fun lm => ex_intro _ (the_line lm (w14 lm)) (conj (w14_fresh lm) (conj (w14_r lm)
    (conj (proj1 (w14_answers lm)) (answer_spec _ _ _ (proj2 (w14_answers lm)) ltac:(lia)))))).
Qed.
Print Assumptions line_alignment_points_current_refuted.

(** C15: the copy of a line that was asked for coordinates reports none. *)
Theorem line_copy_coordinates_refuted : forall lm,
  exists l l' : Line (B64 lm) nat, reachable (N := B64 lm) num64 l /\ copy l = Ok l' /\
    (exists p, snd (PointsXyzAlignment l) = Ok (Some p) /\ Z.of_nat (length p) = 2%Z) /\
    (exists p, snd (PointsXyzAlignment l') = Ok (Some p) /\ Z.of_nat (length p) = 0%Z).
Proof.
  exact (fun lm => ex_intro _ (the_line lm (w13 lm)) (ex_intro _ (copy_of lm (the_line lm (w13 lm)))
    (conj (w13_r lm) (conj (proj1 (w15_answers lm))
    (conj (answer_spec _ _ _ (proj1 (proj2 (w15_answers lm))) ltac:(lia))
          (answer_spec _ _ _ (proj2 (proj2 (w15_answers lm))) ltac:(lia))))))).
Qed.
Print Assumptions line_copy_coordinates_refuted.

(** C16: calls with undefined behaviour: a structure added to, or a point asked
    from, a line without alignment; deleting the only alignment point; a cable
    on an attachment without hardware; a structure replaced by one whose
    Structure pointer is null; HasConnection with an index out of range. *)
Theorem line_no_undefined_behaviour_refuted : forall lm,
  exists l1 l2 l3 : Line (B64 lm) nat,
    reachable (N := B64 lm) num64 l1 /\ reachable (N := B64 lm) num64 l2 /\
    reachable (N := B64 lm) num64 l3 /\
    (exists s, snd (line_step l1 (CAddLineStructure s)) = UB) /\
    (exists x, snd (line_step l1 (CPointXyzAlignment x)) = UB) /\
    snd (line_step l2 (CDeleteAlignmentPoint 0)) = UB /\
    (exists cs, snd (line_step l3 (CAddLineCable cs 1%nat)) = UB) /\
    (exists s, ls_structure s = None /\ slots_match s /\ snd (line_step l3 (CModifyLineStructure 0 s)) = UB) /\
    snd (line_step l3 (CHasConnection 2 0)) = UB.
Proof.
  intros lm. destruct (w16_ub lm) as (A & B & C & D & E & F).
  exists Line_empty, (the_line lm (w16b lm)), (the_line lm (w16 lm)).
  split; [exact (empty_r lm)|]. split; [exact (w16b_r lm)|]. split; [exact (w16_r lm)|].
  split; [eexists; exact A|]. split; [eexists; exact B|]. split; [exact C|].
  split; [eexists; exact D|]. split; [eexists; split; [|split; [|exact E]]; reflexivity|exact F].
Qed.
Print Assumptions line_no_undefined_behaviour_refuted.

(** C58: the documentation says that a cable is removed when one of its
    terminating connections becomes invalid.  Deleting the last structure of a
    cable over three structures shortens the cable instead. *)
Theorem line_terminating_connection_refuted : forall lm,
  exists l l' : Line (B64 lm) nat, reachable (N := B64 lm) num64 l /\
    DeleteLineStructure l 2 = (l', Ok true) /\
    obs_cables lm l = [[(1, 0); (2, 0); (0, 0)]; [(1, 1); (2, 1)]]%Z /\
    obs_cables lm l' = [[(1, 0); (2, 0)]; [(1, 1); (2, 1)]]%Z.
Proof.
  exact (fun lm => ex_intro _ (s_line lm) (ex_intro _ _ (conj (s_line_reachable lm)
    (conj (eq_trans (surjective_pairing _) (f_equal (pair _) (proj1 (w58_kept lm))))
      (proj2 (w58_kept lm)))))).
Qed.
Print Assumptions line_terminating_connection_refuted.

(** C59: a structure can be given a station that is not a number. *)
Theorem line_nan_station_refuted : forall lm,
  exists (l : Line (B64 lm) nat) s, reachable (N := B64 lm) (fun _ => True) l /\
    In s (structures_of l) /\ ls_station s = (B754_nan : B64 lm).
Proof.
  exact (fun lm => match w59_nan lm with ex_intro _ s K =>
    ex_intro _ (the_line lm (w59 lm)) (ex_intro _ s (conj (w59_r lm) K)) end).
Qed.
Print Assumptions line_nan_station_refuted.
