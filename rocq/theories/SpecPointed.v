(** Elongation models as values: an object is nothing but its own members. *)
From Coq Require Import ZArith Bool List.
From Verif Require Import Num ModelBase ModelThermal ModelElongation ModelPointed.
Import ListNotations.
Open Scope Z_scope.

Section Spec.
Context {N : Num}.

(** The answer of a call on a value, and the value after it. *)
Definition v_call (m : ElongModel N) (c : EmCall N) : outcome (EmAnswer N * ElongModel N) :=
  match c with
  | EmLoad t x => do (v, m) <- em_Load m t x; Ok (EmNumber v, m)
  | EmSlope t x => do (v, m) <- em_Slope m t x; Ok (EmNumber v, m)
  | EmStrain t y => do (v, m) <- em_Strain m t y; Ok (EmNumber v, m)
  | EmValidate w => do (v, m) <- em_Validate w m; Ok (EmTruth v, m)
  | _ => do m <- em_call m c; Ok (EmNothing, m)
  end.

(** The values by address and the next address. *)
Record VMemory : Type := mkVMemory { vy_models : Z -> option (ElongModel N); vy_next : Z }.
Definition VMemory_empty : VMemory := mkVMemory (fun _ => None) 0.
Definition vput (m : Z -> option (ElongModel N)) (i : Z) (v : option (ElongModel N)) : Z -> option (ElongModel N) :=
  fun j => if Z.eqb i j then v else m j.

(** A copy is the same value, and from then on a value of its own. *)
Definition v_step (m : VMemory) (c : ECall N) : outcome (EmAnswer N * VMemory) :=
  match c with
  | ENew => Ok (EmNothing, mkVMemory (vput (vy_models m) (vy_next m) (Some ElongModel_new)) (vy_next m + 1))
  | ECopy i =>
      do v <- deref (vy_models m i);
      Ok (EmNothing, mkVMemory (vput (vy_models m) (vy_next m) (Some v)) (vy_next m + 1))
  | EAssign i j =>
      do _ <- deref (vy_models m i);
      do v <- deref (vy_models m j);
      Ok (EmNothing, mkVMemory (vput (vy_models m) i (Some v)) (vy_next m))
  | EDestroy i =>
      do _ <- deref (vy_models m i);
      Ok (EmNothing, mkVMemory (vput (vy_models m) i None) (vy_next m))
  | EDo i c =>
      do v <- deref (vy_models m i);
      do (a, v) <- v_call v c;
      Ok (a, mkVMemory (vput (vy_models m) i (Some v)) (vy_next m))
  end.
Fixpoint v_run (m : VMemory) (cs : list (ECall N)) : outcome (list (EmAnswer N) * VMemory) :=
  match cs with
  | [] => Ok ([], m)
  | c :: cs => do (a, m) <- v_step m c; do (l, m) <- v_run m cs; Ok (a :: l, m)
  end.

(** The answers of a program, or how it fails. *)
Definition program_answers (cs : list (ECall N)) : outcome (list (EmAnswer N)) := omap fst (e_run EMemory_empty cs).
Definition value_answers (cs : list (ECall N)) : outcome (list (EmAnswer N)) := omap fst (v_run VMemory_empty cs).

(** A step that copies nothing. *)
Definition no_copy (c : ECall N) : Prop := match c with ECopy _ | EAssign _ _ => False | _ => True end.

(** Programs that copy an object only while it was not asked since its cable or its stretch
    state was set last ([fresh]), and that leave an object alone that took part in a copy
    ([shared]): it is not destroyed and gets no other cable. *)
Definition mark (f : Z -> bool) (i : Z) (b : bool) : Z -> bool := fun j => if Z.eqb i j then b else f j.
Fixpoint early (fresh shared : Z -> bool) (next : Z) (cs : list (ECall N)) : Prop :=
  match cs with
  | [] => True
  | ENew :: cs => early (mark fresh next true) (mark shared next false) (next + 1) cs
  | ECopy i :: cs => fresh i = true /\ early (mark fresh next true) (mark (mark shared i true) next true) (next + 1) cs
  | EAssign i j :: cs => fresh j = true /\ early (mark fresh i true) (mark (mark shared i true) j true) next cs
  | EDestroy i :: cs => shared i = false /\ early fresh shared next cs
  | EDo i (EmSetCable _) :: cs => shared i = false /\ early (mark fresh i true) shared next cs
  | EDo i (EmSetStretch _) :: cs => early (mark fresh i true) shared next cs
  | EDo i (EmSetState _) :: cs => early fresh shared next cs
  | EDo i _ :: cs => early (mark fresh i false) shared next cs
  end.
Definition copies_early (cs : list (ECall N)) : Prop := early (fun _ => false) (fun _ => false) 0 cs.

End Spec.
Arguments VMemory : clear implicits.
