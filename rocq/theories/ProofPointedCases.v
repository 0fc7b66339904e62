(** Witnesses and cases for elongation models in memory, in IEEE binary64. *)
From Coq Require Import ZArith Bool List.
From Flocq Require Import IEEE754.BinarySingleNaN.
From Verif Require Import Num ModelBase ModelCable ModelElongation ModelPointed SpecElong SpecPointed SampleElong ProofElongRefuted.
Import ListNotations.
Open Scope num_scope.

(** An object with a cable of two linear components, at the creep state. *)
Definition made (i : Z) : list (ECall E64) := ENew :: map (EDo i) (setters cable_both PTCreep PTCreep 0).
Definition ask_load (i : Z) : ECall E64 := EDo i (EmLoad CTCombined (strain64 15625 (-6))).
(** It is asked and then copied. *)
Definition late : list (ECall E64) := made 0 ++ [ask_load 0; ECopy 0].
(** The original gets the other state. *)
Definition other : ECall E64 := EDo 0 (EmSetState (s_state PTLoadStrain)).

(** The copy answers otherwise afterwards. *)
Definition late_check : bool :=
  match e_run EMemory_empty late with
  | Ok (_, m) =>
      match e_step m (ask_load 1), e_run m [other; ask_load 1] with
      | Ok (EmNumber x, _), Ok ([EmNothing; EmNumber y], _) => x <? y
      | _, _ => false
      end
  | _ => false
  end.
Lemma late_true : late_check = true.
Proof. vm_compute. reflexivity. Qed.

Theorem late_moves : exists lm (cs : list (ECall (B64 lm))) l m s e x y m1 m2,
  e_run EMemory_empty cs = Ok (l, m) /\ e_step m (EDo 1%Z (EmLoad CTCombined e)) = Ok (EmNumber x, m1) /\
  e_run m [EDo 0%Z (EmSetState s); EDo 1%Z (EmLoad CTCombined e)] = Ok ([EmNothing; EmNumber y], m2) /\ (x <? y) = true.
Proof.
  exists libm64, late. pose proof late_true as H. unfold late_check in H.
  destruct (e_run EMemory_empty late) as [[l m]| |] eqn:E1; try discriminate H.
  destruct (e_step m (ask_load 1)) as [[[|x|] m1]| |] eqn:E2; try discriminate H.
  destruct (e_run m [other; ask_load 1]) as [[[|[| |] [|[|y|] [|]]] m2]| |] eqn:E3; try discriminate H.
  exists l, m, (s_state PTLoadStrain), (strain64 15625 (-6)), x, y, m1, m2. auto.
Qed.

(** The original is destroyed: the copy cannot be asked. *)
Definition gone : list (ECall E64) := late ++ [EDestroy 0; ask_load 1].
Definition only_first {A : Type} (x y : outcome A) : bool := match x, y with UB, Ok _ => true | _, _ => false end.
Lemma only_first_true : forall (A : Type) (x y : outcome A), only_first x y = true -> x = UB /\ exists l, y = Ok l.
Proof. intros A [a| |] [b| |] H; try discriminate H. eauto. Qed.
Lemma gone_true : only_first (program_answers gone) (value_answers gone) = true.
Proof. vm_cast_no_check (eq_refl true). Qed.

Theorem gone_fails : exists lm (cs : list (ECall (B64 lm))) e l,
  program_answers (cs ++ [EDestroy 0%Z; EDo 1%Z (EmLoad CTCombined e)]) = UB /\
  value_answers (cs ++ [EDestroy 0%Z; EDo 1%Z (EmLoad CTCombined e)]) = Ok l.
Proof.
  exists libm64, late, (strain64 15625 (-6)). destruct (only_first_true _ _ _ gone_true) as [H [l K]].
  exists l. split; [exact H|exact K].
Qed.

(** ** Cases *)

Definition early_case : list (ECall E64) :=
  made 0 ++ [ECopy 0; ask_load 0; other; EDo 1 (EmSetStretch (s_stretch PTCreep 2560)); ask_load 1; ask_load 0; EDo 1 (EmValidate true); ask_load 1].
Definition two_case : list (ECall E64) :=
  made 0 ++ made 1 ++ [ask_load 0; ask_load 1; other; EDo 1 (EmSetStretch (s_stretch PTCreep 2560)); ask_load 1; EDestroy 1; EDo 0 (EmValidate true); ask_load 0].
(** The answers are these: None for a call without an answer, a number, 1 or 0 for true or false. *)
Fixpoint shows (l : list (EmAnswer E64)) (zs : list (option Z)) : bool :=
  match l, zs with
  | [], [] => true
  | a :: l, z :: zs =>
      match a, z with
      | EmNothing, None => true
      | EmNumber v, Some z => v =? z64 z
      | EmTruth b, Some z => eqb b (z =? 1)%Z
      | _, _ => false
      end && shows l zs
  | _, _ => false
  end.
Definition answers_are (cs : list (ECall E64)) (zs : list (option Z)) : bool :=
  match program_answers cs with Ok l => shows l zs | _ => false end.
Lemma early_case_true : answers_are early_case
  [None; None; None; None; None; Some 2048; None; None; Some 512; Some 4096; Some 1; Some 0]%Z = true.
Proof. vm_cast_no_check (eq_refl true). Qed.
Lemma two_case_true : answers_are two_case
  [None; None; None; None; None; None; None; None; Some 2048; Some 2048; None; None; Some 512; None; Some 1; Some 4096]%Z = true.
Proof. vm_cast_no_check (eq_refl true). Qed.
