(** Properties of objects of CableElongationModel and their pointers (cable_elongation_model.cc). *)
From Coq Require Import ZArith List.
From Verif Require Import Num ModelBase ModelElongation ModelPointed SpecPointed SampleElong
  ProofPointedRun ProofPointedCases.
Import ListNotations.
Open Scope Z_scope.

(** C147: in a program that copies no elongation model, every answer is the one of the model
    as a value: no pointer is read that is null, dangling or refers to another object, and
    no answer depends on a local state.  The outcome is the same too: exceptions and
    undefined behaviour are those of the values. *)
Theorem elongation_objects : forall (N : Num) (cs : list (ECall N)), Forall no_copy cs ->
  program_answers cs = value_answers cs.
Proof. exact @uncopied_answers. Qed.
Print Assumptions elongation_objects.

Example elongation_objects_case : Forall no_copy two_case /\ answers_are two_case
  [None; None; None; None; None; None; None; None; Some 2048; Some 2048; None; None; Some 512; None; Some 1; Some 4096] = true.
Proof. split; [repeat constructor|exact two_case_true]. Qed.

(** C148, the true part: copies are independent if an object is copied only while it was not
    asked since its cable or stretch state was set, and if neither of the two is destroyed
    or gets another cable afterwards. *)
Theorem elongation_copies_partial : forall (N : Num) (cs : list (ECall N)), copies_early cs ->
  program_answers cs = value_answers cs.
Proof. exact @early_answers. Qed.
Print Assumptions elongation_copies_partial.

Example elongation_copies_case : copies_early early_case /\ answers_are early_case
  [None; None; None; None; None; Some 2048; None; None; Some 512; Some 4096; Some 1; Some 0] = true.
Proof. split; [repeat split|exact early_case_true]. Qed.

(** C148 is false: the copy of a model that was asked answers otherwise after the state of
    the original is set ... *)
Theorem elongation_copy_follows_refuted : exists lm (cs : list (ECall (B64 lm))) l m s e x y m1 m2,
  e_run EMemory_empty cs = Ok (l, m) /\ e_step m (EDo 1 (EmLoad CTCombined e)) = Ok (EmNumber x, m1) /\
  e_run m [EDo 0 (EmSetState s); EDo 1 (EmLoad CTCombined e)] = Ok ([EmNothing; EmNumber y], m2) /\
  fltb (n := B64 lm) x y = true.
Proof. exact late_moves. Qed.
Print Assumptions elongation_copy_follows_refuted.

(** ... and its queries are undefined after the original is destroyed. *)
Theorem elongation_copy_dangles_refuted : exists lm (cs : list (ECall (B64 lm))) e l,
  program_answers (cs ++ [EDestroy 0; EDo 1 (EmLoad CTCombined e)]) = UB /\
  value_answers (cs ++ [EDestroy 0; EDo 1 (EmLoad CTCombined e)]) = Ok l.
Proof. exact gone_fails. Qed.
Print Assumptions elongation_copy_dangles_refuted.
