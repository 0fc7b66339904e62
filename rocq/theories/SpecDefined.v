(** Specification of when the calls on the sag position corrector and on the cable position
    locator return. *)
From Coq Require Import ZArith Bool List.
From Verif Require Import Num ModelBase ModelAlignment ModelLine ModelCatenary ModelCable ModelLoad ModelElongation ModelReload ModelThermal
  ModelSagtension ModelSagging ModelLocator SpecTransmission.
Import ListNotations.
Open Scope num_scope.

(** Whether a call returns, throws or is undefined. *)
Definition verdict {A : Type} (o : outcome A) : outcome unit :=
  match o with Ok _ => Ok tt | Throw => Throw | UB => UB end.

Section Spec.
Context {N : Num}.

(** A query of a corrector with the line cable [l] and the points [ps]: it needs a line cable
    with a cable and the weather case of its constraint.  If the catenary of the ruling span
    is valid, it needs the points, too: without a point it throws. *)
Definition corrector_verdict (l : option (Strung N)) (ps : option (list (Point3d N))) : outcome unit :=
  match l with
  | None => UB
  | Some l =>
      let s := lc_payload l in
      match sr_cable s, co_weather (sr_constraint s) with
      | Some _, Some _ =>
          match CatenaryRulingSpan s with
          | Ok c =>
              if c3_Validate c then
                match ps with
                | None => UB
                | Some [] => Throw
                | Some [_] => UB
                | Some (_ :: _ :: _) => Ok tt
                end
              else Ok tt
          | _ => UB
          end
      | _, _ => UB
      end
  end.

(** The lines a locator is given were made by calls with stations that are [ok]. *)
Definition takes_lines {P : Type} (ok : N -> Prop) (k : PlCall N P) : Prop :=
  match k with PlSetLine (Some l) => reachable ok l | _ => True end.

(** The locator has a line, the index of one of its line cables and a unit weight. *)
Definition equipped {P : Type} (s : Locator N P) : Prop :=
  exists l, pl_line s = Some l /\ (0 <= pl_index s < Z.of_nat (length (tl_line_cables l)))%Z /\ pl_weight s <> None.

End Spec.
