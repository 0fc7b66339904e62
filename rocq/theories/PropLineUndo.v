(** C195: what was just added to a line can be deleted again. *)
From Coq Require Import ZArith Bool List Lia.
From Flocq Require Import IEEE754.BinarySingleNaN.
From Verif Require Import Num NumFacts ModelBase ModelAlignment ModelLine SpecLine SpecTransmission
  ProofLineContracts ProofLineUndo SampleLine PropLineMore.
Import ListNotations.

(** Deleting the index returned by a successful AddLineStructure or AddLineCable restores
    alignment, structures and cables. *)
Theorem line_additions_undone :
  forall lm P (l l' : Line (B64 lm) P) k, constructible (N := B64 lm) num64 l -> k <> (-1)%Z ->
    (forall s : LineStructure (B64 lm), num64 (ls_station s) -> slots_match s ->
       AddLineStructure l s = (l', Ok k) ->
       exists l'', DeleteLineStructure l' k = (l'', Ok true) /\ content_unchanged l l'') /\
    (forall lc, AddLineCable l lc = (l', Ok k) ->
       exists l'', DeleteLineCable l' k = (l'', Ok true) /\ content_unchanged l l'').
Proof.
  exact (fun lm P l l' k C K =>
    conj (fun s Hs Hm H => @add_structure_undone (B64 lm) num64 (B64_ord lm) P l l' s k C Hs Hm H K)
         (fun lc H => @add_cable_undone (B64 lm) num64 (B64_ord lm) P l l' lc k C H K)).
Qed.
Print Assumptions line_additions_undone.

(** A structure at 70 and a cable on the line of SampleLine.v after DeleteLineCable. *)
Example line_additions_undone_case : forall lm,
  constructible (N := B64 lm) num64 (s_line lm) /\
  num64 (ls_station (s_ls lm 70 2)) /\ slots_match (s_ls lm 70 2) /\
  snd (AddLineStructure (s_line lm) (s_ls lm 70 2)) = Ok 2%Z /\
  snd (AddLineCable (fst (DeleteLineCable (s_line lm) 1)) (mkLC [s_conn lm 1 1; s_conn lm 0 1] 9%nat)) = Ok 1%Z.
Proof.
  intros lm. split; [exact (case_constructible lm)|]. split; [reflexivity|]. split; [reflexivity|].
  split; vm_compute; reflexivity.
Qed.
