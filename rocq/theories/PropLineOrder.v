(** C198: the order of adding line structures does not matter. *)
From Coq Require Import ZArith Bool List Lia Permutation.
From Flocq Require Import IEEE754.BinarySingleNaN.
From Verif Require Import Num NumFacts ModelBase ModelAlignment ModelLine SpecLine SpecTransmission
  ProofLineContracts ProofLineOrder SampleLine PropLineMore.
Import ListNotations.

(** Structures on the alignment, with stations different from each other and from those of
    the line, may be added in any order: all are accepted, and structures, alignment and
    cables of the line are the same. *)
Theorem line_structures_any_order :
  forall lm P (l : Line (B64 lm) P) (ss ts : list (LineStructure (B64 lm))),
    constructible (N := B64 lm) num64 l ->
    (forall s, In s ss -> num64 (ls_station s) /\ slots_match s /\
       on_alignment (tl_alignment l) (ls_station s)) ->
    (forall i j s t, i <> j -> nth_error ss i = Some s -> nth_error ss j = Some t ->
       feqb (n := B64 lm) (ls_station s) (ls_station t) = false) ->
    (forall s t, In s ss -> In t (structures_of l) ->
       feqb (n := B64 lm) (ls_station s) (ls_station t) = false) ->
    Permutation ss ts ->
    exists l1 l2,
      line_run_from l (map CAddLineStructure ss) = Some l1 /\
      line_run_from l (map CAddLineStructure ts) = Some l2 /\
      structures_of l2 = structures_of l1 /\ tl_alignment l2 = tl_alignment l1 /\
      tl_line_cables l2 = tl_line_cables l1 /\
      Permutation (structures_of l1) (ss ++ structures_of l) /\
      tl_alignment l1 = tl_alignment l /\ tl_line_cables l1 = tl_line_cables l.
Proof. exact (fun lm P => @structures_any_order (B64 lm) num64 (B64_ord lm) P). Qed.
Print Assumptions line_structures_any_order.

(** Structures at 70 and 30 added to the line of SampleLine.v with those at 10, 50 and 90. *)
Example line_structures_any_order_case : forall lm,
  let ss := [s_ls lm 70 2; s_ls lm 30 2] in
  constructible (N := B64 lm) num64 (s_line lm) /\
  (forall s, In s ss -> num64 (ls_station s) /\ slots_match s /\
     on_alignment (tl_alignment (s_line lm)) (ls_station s)) /\
  (forall i j s t, i <> j -> nth_error ss i = Some s -> nth_error ss j = Some t ->
     feqb (n := B64 lm) (ls_station s) (ls_station t) = false) /\
  (forall s t, In s ss -> In t (structures_of (s_line lm)) ->
     feqb (n := B64 lm) (ls_station s) (ls_station t) = false) /\
  Permutation ss [s_ls lm 30 2; s_ls lm 70 2] /\
  match line_run_from (s_line lm) (map CAddLineStructure ss) with
  | Some l1 => obs_stations lm l1 [10; 30; 50; 70; 90]%Z
  | None => false
  end = true.
Proof.
  intros lm ss. split; [exact (case_constructible lm)|]. split; [|split; [|split; [|split]]].
  - intros s [<-|[<-|[]]]; (split; [reflexivity|split; [reflexivity|]]);
      apply on_alignment_bool; vm_compute; reflexivity.
  - apply spread_two; vm_compute; reflexivity.
  - intros s t [<-|[<-|[]]] Ht; revert t Ht; apply new_bool; vm_compute; reflexivity.
  - apply perm_swap.
  - vm_compute. reflexivity.
Qed.
