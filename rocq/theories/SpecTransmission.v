(** Specification vocabulary for the transmission line: what is meant by the
    arguments and observations in the statements of PropLine*.v.  Only the data
    types of the model are used, none of its functions. *)
From Coq Require Import ZArith Bool List.
From Verif Require Import Num ModelBase ModelAlignment ModelLine.
Import ListNotations.
Open Scope num_scope.

Section Spec.
Context {N : Num} {P : Type}.

(** The structures listed by line_structures(), in order. *)
Definition structures_of (l : Line N P) : list (LineStructure N) :=
  map snd (tl_line_structures l).

(** [id] is the address of the structure at position [i]. *)
Definition address_at (l : Line N P) (i : nat) (id : nat) : Prop :=
  exists s, nth_error (tl_line_structures l) i = Some (id, s).

(** A line structure as the class LineStructure produces it: one hardware slot
    per attachment (this is property C21). *)
Definition slots_match (s : LineStructure N) : Prop :=
  match ls_structure s with
  | None => ls_hardwares s = []
  | Some st => length (ls_hardwares s) = length (st_attachments st)
  end.

(** Arguments handed to a call: stations satisfy [ok] (not NaN) and line
    structures have one hardware slot per attachment. Indices, connections,
    pointers, hardware and all other numbers are arbitrary. *)
Definition call_args_ok (ok : N -> Prop) (c : LineCall N P) : Prop :=
  match c with
  | CAddAlignmentPoint p => ok (ap_station p)
  | CAddLineStructure s => ok (ls_station s) /\ slots_match s
  | CModifyAlignmentPoint _ p => ok (ap_station p)
  | CModifyLineStructure _ s => ok (ls_station s) /\ slots_match s
  | _ => True
  end.

(** [l] is a state reached from the empty line by calls with such arguments,
    without undefined behaviour. *)
Definition reachable (ok : N -> Prop) (l : Line N P) : Prop :=
  exists calls, Forall (call_args_ok ok) calls /\ line_run calls = Some l.

(** Same alignment, structures and cables. *)
Definition content_unchanged (l l' : Line N P) : Prop :=
  tl_alignment l' = tl_alignment l /\
  tl_line_structures l' = tl_line_structures l /\
  tl_line_cables l' = tl_line_cables l.

(** The station lies between the first and the last alignment point. *)
Definition on_alignment (points : list (AlignmentPoint N)) (station : N) : Prop :=
  exists first last,
    nth_error points 0 = Some first /\
    nth_error points (length points - 1) = Some last /\
    (ap_station first <=? station) = true /\ (station <=? ap_station last) = true.

(** The connection uses attachment [j] of the structure with address [id]. *)
Definition connects (c : Connection N) (id : nat) (j : Z) : Prop :=
  cn_line_structure c = SOwned id /\ cn_index_attachment c = j.

(** Calls that only read. *)
Definition is_query (c : LineCall N P) : bool :=
  match c with
  | CPointsXyzAlignment | CPointsXyzLineStructures | CPointXyzAlignment _
  | CPointXyzLineStructure _ | CPointXyzLineStructureAttachment _ _ | CHasConnection _ _
  | CValidate _ => true
  | _ => false
  end.

(** Calls on the line cables. *)
Definition is_cable_call (c : LineCall N P) : bool :=
  match c with
  | CAddLineCable _ _ | CDeleteLineCable _ | CModifyLineCable _ _ _ => true
  | _ => false
  end.

(** Calls that edit the alignment or the origin. *)
Definition is_alignment_edit (c : LineCall N P) : bool :=
  match c with
  | CAddAlignmentPoint _ | CDeleteAlignmentPoint _ | CModifyAlignmentPoint _ _ | CSetOrigin _ => true
  | _ => false
  end.

(** A line built without ever asking for coordinates. *)
Definition fresh_line (l : Line N P) : Prop :=
  exists calls, (forall c, In c calls -> is_query c = false) /\ line_run calls = Some l.

(** The pointer is null, or points to a live structure whose slot at the
    attachment index is not empty (an index out of range is allowed). *)
Definition connection_safe (l : Line N P) (c : Connection N) : Prop :=
  let slot_ok (s : LineStructure N) :=
    ~ ((0 <= cn_index_attachment c)%Z /\
       nth_error (ls_hardwares s) (Z.to_nat (cn_index_attachment c)) = Some None) in
  match cn_line_structure c with
  | SNull => True
  | SExt s => slot_ok s
  | SOwned id => exists s, In (id, s) (tl_line_structures l) /\ slot_ok s
  end.

(** What a caller has to respect so that a call has defined behaviour. *)
Definition call_safe (l : Line N P) (c : LineCall N P) : Prop :=
  match c with
  | CAddLineStructure _ => tl_alignment l <> []
  | CPointXyzAlignment _ => tl_alignment l <> []
  | CDeleteAlignmentPoint i => ~ (i = 0%Z /\ length (tl_alignment l) = 1%nat)
  | CAddLineCable requests _ => Forall (connection_safe l) requests
  | CModifyLineCable _ requests _ => Forall (connection_safe l) requests
  | CModifyLineStructure i s =>
      (0 <= i < Z.of_nat (length (tl_line_structures l)))%Z ->
      exists st, ls_structure s = Some st /\
        forall id lc c, address_at l (Z.to_nat i) id -> In lc (tl_line_cables l) ->
          In c (lc_connections lc) -> cn_line_structure c = SOwned id ->
          (cn_index_attachment c < Z.of_nat (length (st_attachments st)))%Z ->
          nth_error (ls_hardwares s) (Z.to_nat (cn_index_attachment c)) <> Some None
  | CPointXyzLineStructureAttachment i _ =>
      forall s, (0 <= i)%Z -> nth_error (structures_of l) (Z.to_nat i) = Some s -> ls_structure s <> None
  | CHasConnection i _ => (0 <= i < Z.of_nat (length (tl_line_structures l)))%Z
  | CValidate parts => parts <> UB
  | _ => True
  end.

(** The connection refers to a structure that is in the line. *)
Definition in_line (l : Line N P) (c : Connection N) : bool :=
  match cn_line_structure c with
  | SOwned id => existsb (Nat.eqb id) (map fst (tl_line_structures l))
  | _ => false
  end.

(** The cables without the connections that fail the test [keep]; cables left
    with fewer than two connections are gone. *)
Definition restrict_cables (keep : Connection N -> bool) (cables : list (LineCable N P))
    : list (LineCable N P) :=
  filter (fun lc => Nat.leb 2 (length (lc_connections lc)))
    (map (fun lc => mkLC (filter keep (lc_connections lc)) (lc_payload lc)) cables).

(** Station between two given alignment points. *)
Definition between (first last : AlignmentPoint N) (s : LineStructure N) : bool :=
  (ap_station first <=? ls_station s) && (ls_station s <=? ap_station last).

(** Every ModifyLineStructure of the history moves its structure to a station on
    the alignment of that moment. *)
Fixpoint modifies_on_alignment (l : Line N P) (calls : list (LineCall N P)) : Prop :=
  match calls with
  | [] => True
  | c :: rest =>
      match c with
      | CModifyLineStructure _ s => on_alignment (tl_alignment l) (ls_station s)
      | _ => True
      end /\ modifies_on_alignment (fst (line_step l c)) rest
  end.

(** The cable starts at attachment [j] of the structure at position [i]. *)
Definition starts_at (l : Line N P) (lc : LineCable N P) (i : nat) (j : Z) : Prop :=
  exists c id, nth_error (lc_connections lc) 0 = Some c /\ connects c id j /\ address_at l i id.

(** The documented order of line_cables(): by starting structure, then by
    attachment. *)
Definition cables_in_order (l : Line N P) : Prop :=
  forall a b lc1 lc2 i1 j1 i2 j2, (a < b)%nat ->
    nth_error (tl_line_cables l) a = Some lc1 -> nth_error (tl_line_cables l) b = Some lc2 ->
    starts_at l lc1 i1 j1 -> starts_at l lc2 i2 j2 ->
    (i1 < i2)%nat \/ (i1 = i2 /\ (j1 < j2)%Z).

(** Connection [c'] of the copy [l'] corresponds to [c] of the original [l]: the
    same attachment of the structure at the same position, each in its own line. *)
Definition rewired (l l' : Line N P) (c c' : Connection N) : Prop :=
  cn_index_attachment c' = cn_index_attachment c /\
  exists i id id', address_at l i id /\ cn_line_structure c = SOwned id /\
                   address_at l' i id' /\ cn_line_structure c' = SOwned id'.

(** The pointer refers to a live structure whose station satisfies [ok]. *)
Definition points_at (env : Env N) (p : SPtr N) (s : LineStructure N) : Prop :=
  p = SExt s \/ exists id, p = SOwned id /\ lookup env id = Some s.

(** The stations of the structures the connections refer to. *)
Definition conn_stations (env : Env N) (cs : list (Connection N)) (ss : list N) : Prop :=
  Forall2 (fun c x => exists s, points_at env (cn_line_structure c) s /\ ls_station s = x) cs ss.

(** Null, or live with an [ok] station. *)
Definition conn_arg_ok (ok : N -> Prop) (env : Env N) (c : Connection N) : Prop :=
  cn_line_structure c = SNull \/
  exists s, points_at env (cn_line_structure c) s /\ ok (ls_station s).

Definition conn_call_ok (ok : N -> Prop) (env : Env N) (c : ConnCall N) : Prop :=
  match c with
  | CallAddConnection k => conn_arg_ok ok env k
  | CallModifyConnection _ k => conn_arg_ok ok env k
  | _ => True
  end.

(** Every state a program can bring a line into: built from the empty line by
    calls, by copy construction and by assignment from other such lines,
    without undefined behaviour. *)
Inductive constructible (ok : N -> Prop) : Line N P -> Prop :=
| constructible_empty : constructible ok Line_empty
| constructible_call : forall l c l' r, constructible ok l -> call_args_ok ok c ->
    line_step l c = (l', r) -> r <> UB -> constructible ok l'
| constructible_assign : forall this that l', constructible ok this -> constructible ok that ->
    assign this that = Ok l' -> constructible ok l'.

(** The structure has an attachment [i]. *)
Definition valid_attachment (s : LineStructure N) (i : Z) : Prop :=
  exists st, ls_structure s = Some st /\ (0 <= i < Z.of_nat (length (st_attachments st)))%Z.

(** The connection can be made: its structure is in the line, the attachment
    exists, carries hardware and is not used by any cable. *)
Definition connectable (l : Line N P) (c : Connection N) : Prop :=
  exists i id s h, nth_error (tl_line_structures l) i = Some (id, s) /\ cn_line_structure c = SOwned id /\
    (0 <= cn_index_attachment c)%Z /\
    nth_error (ls_hardwares s) (Z.to_nat (cn_index_attachment c)) = Some (Some h) /\
    forall lc c', In lc (tl_line_cables l) -> In c' (lc_connections lc) ->
      ~ connects c' id (cn_index_attachment c).

End Spec.
