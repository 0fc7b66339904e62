(** Properties C05, C07-C09, C11, C12 (partial), C17: the containers of the
    transmission line after any history of calls, copies and assignments, for
    IEEE binary64 stations (not NaN). *)
From Coq Require Import ZArith Bool List Lia Permutation.
From Flocq Require Import IEEE754.BinarySingleNaN.
From Verif Require Import Num NumFacts ModelBase ModelAlignment ModelLine SpecLine SpecTransmission
  ProofLine ProofLineInv ProofLineFacts ProofLineContracts SampleLine.
Import ListNotations.

(** C05 *)
Theorem line_structures_sorted :
  forall lm P (l : Line (B64 lm) P), constructible (N := B64 lm) num64 l ->
    strictly_increasing (N := B64 lm) (map ls_station (structures_of l)).
Proof.
  exact (fun lm P l H => @Inv_sorted (B64 lm) num64 P l
    (@constructible_Inv (B64 lm) num64 (B64_ord lm) P l H)).
Qed.
Print Assumptions line_structures_sorted.

(** C07: and the attachment exists and carries hardware. *)
Theorem line_cables_reference_live_structures :
  forall lm P (l : Line (B64 lm) P) lc c, constructible (N := B64 lm) num64 l ->
    In lc (tl_line_cables l) -> In c (lc_connections lc) ->
    exists i id s h, nth_error (tl_line_structures l) i = Some (id, s) /\
      cn_line_structure c = SOwned id /\
      (0 <= cn_index_attachment c)%Z /\
      nth_error (ls_hardwares s) (Z.to_nat (cn_index_attachment c)) = Some (Some h).
Proof.
  exact (fun lm P l lc c H => @Inv_refs (B64 lm) num64 P l lc c
    (@constructible_Inv (B64 lm) num64 (B64_ord lm) P l H)).
Qed.
Print Assumptions line_cables_reference_live_structures.

(** The addresses of two structures differ (so "the structure at that address"
    in the statements is well defined). *)
Theorem line_structure_addresses_distinct :
  forall lm P (l : Line (B64 lm) P) i j id, constructible (N := B64 lm) num64 l ->
    address_at l i id -> address_at l j id -> i = j.
Proof.
  exact (fun lm P l i j id H => @Inv_addresses (B64 lm) num64 P l i j id
    (@constructible_Inv (B64 lm) num64 (B64_ord lm) P l H)).
Qed.
Print Assumptions line_structure_addresses_distinct.

(** C08: two connections that use the same attachment of the same structure are
    the same connection of the same cable. *)
Theorem line_attachment_used_once :
  forall lm P (l : Line (B64 lm) P) a b i j lc1 lc2 c1 c2 id att,
    constructible (N := B64 lm) num64 l ->
    nth_error (tl_line_cables l) a = Some lc1 -> nth_error (lc_connections lc1) i = Some c1 ->
    nth_error (tl_line_cables l) b = Some lc2 -> nth_error (lc_connections lc2) j = Some c2 ->
    connects c1 id att -> connects c2 id att -> a = b /\ i = j.
Proof.
  exact (fun lm P l a b i j lc1 lc2 c1 c2 id att H =>
    @Inv_unique (B64 lm) num64 P l a b i j lc1 lc2 c1 c2 id att
      (@constructible_Inv (B64 lm) num64 (B64_ord lm) P l H)).
Qed.
Print Assumptions line_attachment_used_once.

(** C09 *)
Theorem line_cables_ordered_with_two_connections :
  forall lm P (l : Line (B64 lm) P) lc, constructible (N := B64 lm) num64 l ->
    In lc (tl_line_cables l) ->
    (2 <= length (lc_connections lc))%nat /\
    forall i j c1 c2, (i < j)%nat -> nth_error (lc_connections lc) i = Some c1 ->
      nth_error (lc_connections lc) j = Some c2 ->
      exists id1 id2 s1 s2, cn_line_structure c1 = SOwned id1 /\ cn_line_structure c2 = SOwned id2 /\
        In (id1, s1) (tl_line_structures l) /\ In (id2, s2) (tl_line_structures l) /\
        fltb (ls_station s1) (ls_station s2) = true.
Proof.
  exact (fun lm P l lc H => @Inv_order (B64 lm) num64 P l lc
    (@constructible_Inv (B64 lm) num64 (B64_ord lm) P l H)).
Qed.
Print Assumptions line_cables_ordered_with_two_connections.

(** C11 *)
Theorem line_failed_calls_change_nothing :
  forall lm P (l l' : Line (B64 lm) P), constructible (N := B64 lm) num64 l ->
    (forall p, AddAlignmentPoint l p = (l', Ok (-1)%Z) -> content_unchanged l l') /\
    (forall s, AddLineStructure l s = (l', Ok (-1)%Z) -> content_unchanged l l') /\
    (forall lc, AddLineCable l lc = (l', Ok (-1)%Z) -> content_unchanged l l') /\
    (forall i p, ModifyAlignmentPoint l i p = (l', Ok (-1)%Z) -> content_unchanged l l') /\
    (forall i s, ModifyLineStructure l i s = (l', Ok false) -> content_unchanged l l') /\
    (forall i, DeleteAlignmentPoint l i = (l', Ok false) -> content_unchanged l l') /\
    (forall i, DeleteLineStructure l i = (l', Ok false) -> content_unchanged l l') /\
    (forall i, DeleteLineCable l i = (l', Ok false) -> content_unchanged l l').
Proof.
  exact (fun lm P l l' H => let I := @constructible_Inv (B64 lm) num64 (B64_ord lm) P l H in
   conj (fun p => AddAlignmentPoint_fail l p l')
  (conj (fun s => AddLineStructure_fail l s l')
  (conj (fun lc K => AddLineCable_fail l lc l' _ K (or_introl eq_refl))
  (conj (fun i p => @ModifyAlignmentPoint_fail (B64 lm) num64 (B64_ord lm) P l i p l' I)
  (conj (fun i s => ModifyLineStructure_fail l i s l')
  (conj (fun i => DeleteAlignmentPoint_fail l i l')
  (conj (fun i => DeleteLineStructure_fail l i l')
        (fun i => DeleteLineCable_fail l i l')))))))).
Qed.
Print Assumptions line_failed_calls_change_nothing.

(** C17 *)
Theorem line_has_connection_exact :
  forall lm P (l : Line (B64 lm) P) i j,
    (0 <= i < Z.of_nat (length (tl_line_structures l)))%Z ->
    exists b, HasConnection l i j = Ok b /\
     (b = true <-> exists id lc c, address_at l (Z.to_nat i) id /\ In lc (tl_line_cables l) /\
        In c (lc_connections lc) /\ connects c id j).
Proof. exact (fun lm P l i j => HasConnection_exact l i j). Qed.
Print Assumptions line_has_connection_exact.

Theorem line_index_structure_exact :
  forall lm P (l : Line (B64 lm) P) p, constructible (N := B64 lm) num64 l ->
    let i := IndexLineStructure l p in
    (i = (-1)%Z /\ (forall k id, address_at l k id -> p <> SOwned id)) \/
    ((0 <= i)%Z /\ exists id, address_at l (Z.to_nat i) id /\ p = SOwned id).
Proof.
  exact (fun lm P l p H => @IndexLineStructure_exact (B64 lm) num64 P l p
    (@constructible_Inv (B64 lm) num64 (B64_ord lm) P l H)).
Qed.
Print Assumptions line_index_structure_exact.

(** C12, the part that holds: after ModifyLineCable returned -1 the same cables
    are there, possibly in another order.  Missing: the order, and the case
    of an exception (see PropLineRefuted.v). *)
Theorem line_modify_cable_failed_partial :
  forall lm P (l l' : Line (B64 lm) P) i lc, constructible (N := B64 lm) num64 l ->
    ModifyLineCable l i lc = (l', Ok (-1)%Z) ->
    tl_alignment l' = tl_alignment l /\ tl_line_structures l' = tl_line_structures l /\
    Permutation (tl_line_cables l) (tl_line_cables l').
Proof.
  exact (fun lm P l l' i lc H => @ModifyLineCable_fail (B64 lm) num64 P l i lc l'
    (@constructible_Inv (B64 lm) num64 (B64_ord lm) P l H)).
Qed.
Print Assumptions line_modify_cable_failed_partial.

(** ** The sample line meets the hypotheses: three structures, two cables, and
    each kind of failing call. *)
Section Example_line.
Variable lm : Libm.
Let l := s_line lm.

Example line_case_constructible : constructible (N := B64 lm) num64 l.
Proof. exact (reachable_constructible _ l (s_line_reachable lm)). Qed.

Example line_case_content :
  obs_stations lm l [10; 50; 90]%Z = true /\ obs_ids lm l = [1; 2; 0]%nat /\
  obs_cables lm l = [[(1, 0); (2, 0); (0, 0)]; [(1, 1); (2, 1)]]%Z /\
  HasConnection l 0 1 = Ok true /\ HasConnection l 2 1 = Ok false /\
  IndexLineStructure l (SOwned 2) = 1%Z /\ IndexLineStructure l (SOwned 5) = (-1)%Z.
Proof. repeat split; vm_compute; reflexivity. Qed.

Example line_case_failures :
  snd (AddAlignmentPoint l (s_pt lm 0 60)) = Ok (-1)%Z /\
  snd (AddLineStructure l (s_ls lm 50 2)) = Ok (-1)%Z /\
  snd (AddLineStructure l (s_ls lm 101 2)) = Ok (-1)%Z /\
  snd (AddLineCable l (mkLC [s_conn lm 1 0; s_conn lm 0 1] 9%nat)) = Ok (-1)%Z /\
  snd (ModifyAlignmentPoint l 1 (s_pt lm 0 0)) = Ok (-1)%Z /\
  snd (ModifyLineStructure l 1 (s_ls lm 90 2)) = Ok false /\
  snd (DeleteAlignmentPoint l 3) = Ok false /\
  snd (DeleteLineStructure l (-1)) = Ok false /\
  snd (DeleteLineCable l 2) = Ok false /\
  snd (ModifyLineCable l 1 (mkLC [s_conn lm 2 0; s_conn lm 0 1] 9%nat)) = Ok (-1)%Z.
Proof. repeat split; vm_compute; reflexivity. Qed.
End Example_line.
