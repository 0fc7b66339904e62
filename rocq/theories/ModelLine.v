(** Model of /repo/src/transmissionline/line_structure.cc, line_cable.cc
    (connections) and transmission_line.cc.  No proofs in this file.

    Pointers.  Line structures live in a std::list, whose nodes never move, so
    an address is modelled by an identifier that is fresh at insertion and
    never reused.  [SOwned id] points to the node [id] of the line (dangling
    once it is erased), [SExt s] to a live object [s] that the line does not
    own, [SNull] is nullptr.  The objects behind [const Structure*] and
    [const Hardware*] belong to the caller; the model stores their content, i.e.
    it assumes the caller does not change them while a line refers to them. *)
From Coq Require Import ZArith Bool List.
From Verif Require Import Num ModelBase ModelAlignment.
Import ListNotations.
Open Scope num_scope.

Section Line.
Context {N : Num}.

(** ** Structures and hardware *)

(** include/models/transmissionline/hardware.h 20-24 *)
Inductive HardwareType : Type := HTNull | DeadEnd | Suspension.

(** hardware.h 44-60 (the name is not modelled) *)
Record Hardware : Type := mkHardware {
  hw_area_cross_section : N; hw_length : N; hw_type : HardwareType; hw_weight : N }.

(** include/models/transmissionline/structure.h 36-44 *)
Record StructureAttachment : Type := mkAttachment {
  sa_offset_longitudinal : N; sa_offset_transverse : N; sa_offset_vertical_top : N }.

(** structure.h 70-74 (the name is not modelled) *)
Record Structure : Type := mkStructure {
  st_attachments : list StructureAttachment; st_height : N }.

(** include/models/transmissionline/line_structure.h, member variables.
    [None] is nullptr, both for the structure and in the hardware slots. *)
Record LineStructure : Type := mkLS {
  ls_hardwares : list (option Hardware);
  ls_height_adjustment : N;
  ls_offset : N;
  ls_rotation : N;
  ls_station : N;
  ls_structure : option Structure }.

(** line_structure.cc 8-14: default constructor *)
Definition LineStructure_default : LineStructure := mkLS [] ferr ferr ferr ferr None.

(** line_structure.cc 152-160 *)
Definition LS_IsValidIndex (s : LineStructure) (index : Z) : bool :=
  match ls_structure s with
  | None => false
  | Some st => valid_index (st_attachments st) index
  end.

(** assignment through an iterator, e.g. line_structure.cc 27, 37 and
    transmission_line.cc 337-338 *)
Definition list_set {A : Type} (n : nat) (x : A) (l : list A) : list A :=
  firstn n l ++ x :: skipn (S n) l.

(** hardwares_.at(index) = x: line_structure.cc 27, 37 *)
Definition LS_put (s : LineStructure) (index : Z) (x : option Hardware) : LineStructure * outcome unit :=
  if valid_index (ls_hardwares s) index then
    (mkLS (list_set (Z.to_nat index) x (ls_hardwares s)) (ls_height_adjustment s)
          (ls_offset s) (ls_rotation s) (ls_station s) (ls_structure s), Ok tt)
  else (s, Throw).

(** line_structure.cc 19-28 *)
Definition AttachHardware (s : LineStructure) (index : Z) (h : option Hardware)
    : LineStructure * outcome unit :=
  if negb (LS_IsValidIndex s index) then (s, Ok tt) else LS_put s index h.

(** line_structure.cc 30-38 *)
Definition DetachHardware (s : LineStructure) (index : Z) : LineStructure * outcome unit :=
  if negb (LS_IsValidIndex s index) then (s, Ok tt) else LS_put s index None.

(** vector::resize(n, nullptr): line_structure.cc 140 *)
Definition resize {A : Type} (n : nat) (x : A) (l : list A) : list A :=
  firstn n l ++ repeat x (n - length l).

(** line_structure.cc 132-142 *)
Definition set_structure (s : LineStructure) (st : option Structure) : LineStructure :=
  let hw := match st with
            | None => []
            | Some t => resize (length (st_attachments t)) None (ls_hardwares s)
            end in
  mkLS hw (ls_height_adjustment s) (ls_offset s) (ls_rotation s) (ls_station s) st.

(** line_structure.cc 116-118, 120-122, 124-126, 128-130 *)
Definition set_height_adjustment (s : LineStructure) (v : N) : LineStructure :=
  mkLS (ls_hardwares s) v (ls_offset s) (ls_rotation s) (ls_station s) (ls_structure s).
Definition set_offset (s : LineStructure) (v : N) : LineStructure :=
  mkLS (ls_hardwares s) (ls_height_adjustment s) v (ls_rotation s) (ls_station s) (ls_structure s).
Definition set_rotation (s : LineStructure) (v : N) : LineStructure :=
  mkLS (ls_hardwares s) (ls_height_adjustment s) (ls_offset s) v (ls_station s) (ls_structure s).
Definition set_station (s : LineStructure) (v : N) : LineStructure :=
  mkLS (ls_hardwares s) (ls_height_adjustment s) (ls_offset s) (ls_rotation s) v (ls_structure s).

(** The public calls of line_structure.h that change the object. *)
Inductive LSCall : Type :=
| LSAttachHardware (index : Z) (hardware : option Hardware)
| LSDetachHardware (index : Z)
| LSset_structure (structure : option Structure)
| LSset_height_adjustment (v : N)
| LSset_offset (v : N)
| LSset_rotation (v : N)
| LSset_station (v : N).

(** One call: line_structure.cc 19-38, 116-142 *)
Definition ls_step (s : LineStructure) (c : LSCall) : LineStructure * outcome unit :=
  match c with
  | LSAttachHardware i h => AttachHardware s i h
  | LSDetachHardware i => DetachHardware s i
  | LSset_structure st => (set_structure s st, Ok tt)
  | LSset_height_adjustment v => (set_height_adjustment s v, Ok tt)
  | LSset_offset v => (set_offset s v, Ok tt)
  | LSset_rotation v => (set_rotation s v, Ok tt)
  | LSset_station v => (set_station s v, Ok tt)
  end.

(** A history; an exception is caught by the caller. *)
Fixpoint ls_run (s : LineStructure) (calls : list LSCall) : LineStructure :=
  match calls with
  | [] => s
  | c :: rest => ls_run (fst (ls_step s c)) rest
  end.

(** ** Line cables *)

(** const LineStructure* (line_cable.h 37), see the head of this file *)
Inductive SPtr : Type := SNull | SOwned (id : nat) | SExt (s : LineStructure).

(** include/models/transmissionline/line_cable.h 24-38 *)
Record Connection : Type := mkConn { cn_index_attachment : Z; cn_line_structure : SPtr }.

(** The live line structures that identifiers can refer to: the nodes of
    line_structures_ (transmission_line.h). *)
Definition Env : Type := list (nat * LineStructure).

(** The node at an address; [None] if there is none (any more). *)
Fixpoint lookup (env : Env) (id : nat) : option LineStructure :=
  match env with
  | [] => None
  | (i, s) :: rest => if Nat.eqb i id then Some s else lookup rest id
  end.

(** operator-> on a const LineStructure*, e.g. line_cable.cc 38, 265 *)
Definition deref (env : Env) (p : SPtr) : outcome LineStructure :=
  match p with
  | SNull => UB
  | SExt s => Ok s
  | SOwned id => match lookup env id with Some s => Ok s | None => UB end
  end.

(** line_cable.cc 33-47: the search loop; [Ok None] is the early return -1.
    The new structure is only dereferenced inside the loop. *)
Fixpoint AddConnection_search (env : Env) (connection : Connection)
    (connections : list Connection) (pos : nat) : outcome (option nat) :=
  match connections with
  | [] => Ok (Some pos)
  | connection_list :: rest =>
      do s <- deref env (cn_line_structure connection);
      do s_list <- deref env (cn_line_structure connection_list);
      if ls_station s <? ls_station s_list then Ok (Some pos)
      else if ls_station s =? ls_station s_list then Ok None
      else AddConnection_search env connection rest (S pos)
  end.

(** line_cable.cc 26-54 *)
Definition AddConnection (env : Env) (connections : list Connection) (connection : Connection)
    : outcome (list Connection * Z) :=
  match cn_line_structure connection with
  | SNull => Ok (connections, -1)%Z
  | _ =>
      do r <- AddConnection_search env connection connections 0;
      match r with
      | None => Ok (connections, -1)%Z
      | Some pos => Ok (insert_at pos connection connections, Z.of_nat (S pos) - 1)%Z
      end
  end.

(** line_cable.cc 110-121 *)
Definition DeleteConnection (connections : list Connection) (index : Z)
    : list Connection * bool :=
  if valid_index connections index then (remove_at (Z.to_nat index) connections, true)
  else (connections, false).

(** line_cable.cc 123-145 *)
Definition ModifyConnection (env : Env) (connections : list Connection) (index : Z)
    (connection : Connection) : outcome (list Connection * Z) :=
  if valid_index connections index then
    do connection_cache <- next_deref connections index;
    let (connections1, deleted) := DeleteConnection connections index in
    if negb deleted then Ok (connections1, -1)%Z
    else
      do r <- AddConnection env connections1 connection;
      let (connections2, status) := (r : list Connection * Z) in
      if (status =? -1)%Z then
        do r' <- AddConnection env connections2 connection_cache;
        Ok (fst r', status)
      else Ok (connections2, status)
  else Ok (connections, -1)%Z.

(** The calls of LineCable that change the connections: line_cable.cc 26-54,
    106-108 (ClearConnections), 110-121, 123-145. *)
Inductive ConnCall : Type :=
| CallAddConnection (connection : Connection)
| CallClearConnections
| CallDeleteConnection (index : Z)
| CallModifyConnection (index : Z) (connection : Connection).

(** Effect of one such call on the connections. *)
Definition conn_step (env : Env) (connections : list Connection) (c : ConnCall)
    : outcome (list Connection) :=
  match c with
  | CallAddConnection k => omap fst (AddConnection env connections k)
  | CallClearConnections => Ok []
  | CallDeleteConnection i => Ok (fst (DeleteConnection connections i))
  | CallModifyConnection i k => omap fst (ModifyConnection env connections i k)
  end.

(** A history of calls on a new LineCable, whose connection list is empty
    (line_cable.cc 17-21), while the structures [env] stay as they are. *)
Fixpoint conn_run (env : Env) (connections : list Connection) (calls : list ConnCall)
    : outcome (list Connection) :=
  match calls with
  | [] => Ok connections
  | c :: rest => do cs <- conn_step env connections c; conn_run env cs rest
  end.

(** line_cable.cc 260-286: one pass over the connections.  The only effect of
    the type tests is a message, but they dereference the hardware. *)
Fixpoint ValidateConnections_loop (env : Env) (connections : list Connection) : outcome unit :=
  match connections with
  | [] => Ok tt
  | connection :: rest =>
      do structure <- deref env (cn_line_structure connection);
      do hardware <- vec_at (ls_hardwares structure) (cn_index_attachment connection);
      match hardware with
      | None => UB
      | Some _ => ValidateConnections_loop env rest
      end
  end.

(** line_cable.cc 244-290 *)
Definition ValidateConnections (env : Env) (connections : list Connection) : outcome bool :=
  if Nat.ltb (length connections) 2 then Ok false
  else do _ <- ValidateConnections_loop env connections; Ok true.

End Line.

Arguments Hardware : clear implicits.
Arguments StructureAttachment : clear implicits.
Arguments Structure : clear implicits.
Arguments LineStructure : clear implicits.
Arguments SPtr : clear implicits.
Arguments Connection : clear implicits.
Arguments Env : clear implicits.
Arguments ConnCall : clear implicits.
Arguments LSCall : clear implicits.

Section TransmissionLine.
Context {N : Num} {P : Type}.

(** line_cable.h, member variables: the connections; the remaining members
    (cable, constraint, ruling span, weather cases) are the payload [P], which
    transmission_line.cc only copies. *)
Record LineCable : Type := mkLC { lc_connections : list (Connection N); lc_payload : P }.

(** include/models/transmissionline/transmission_line.h, member variables.
    [tl_next] is the model's supply of fresh addresses. *)
Record Line : Type := mkLine {
  tl_alignment : list (AlignmentPoint N);
  tl_line_cables : list LineCable;
  tl_line_structures : list (nat * LineStructure N);
  tl_origin : Point3d N;
  tl_is_updated_alignment : bool;
  tl_is_updated_structures : bool;
  tl_points_alignment : list (Point3d N);
  tl_points_structures : list (Point3d N);
  tl_next : nat }.

(** transmission_line.cc 6-9: default constructor *)
Definition Line_empty : Line :=
  mkLine [] [] [] Point3d_default false false [] [] 0.

(** Assignments to the member variables (transmission_line.h). *)
Definition with_alignment (l : Line) (a : list (AlignmentPoint N)) : Line :=
  mkLine a (tl_line_cables l) (tl_line_structures l) (tl_origin l)
    (tl_is_updated_alignment l) (tl_is_updated_structures l)
    (tl_points_alignment l) (tl_points_structures l) (tl_next l).
Definition with_cables (l : Line) (c : list LineCable) : Line :=
  mkLine (tl_alignment l) c (tl_line_structures l) (tl_origin l)
    (tl_is_updated_alignment l) (tl_is_updated_structures l)
    (tl_points_alignment l) (tl_points_structures l) (tl_next l).
Definition with_structures (l : Line) (s : list (nat * LineStructure N)) (next : nat) : Line :=
  mkLine (tl_alignment l) (tl_line_cables l) s (tl_origin l)
    (tl_is_updated_alignment l) (tl_is_updated_structures l)
    (tl_points_alignment l) (tl_points_structures l) next.
Definition with_origin (l : Line) (o : Point3d N) : Line :=
  mkLine (tl_alignment l) (tl_line_cables l) (tl_line_structures l) o
    (tl_is_updated_alignment l) (tl_is_updated_structures l)
    (tl_points_alignment l) (tl_points_structures l) (tl_next l).
Definition with_flags (l : Line) (a s : bool) : Line :=
  mkLine (tl_alignment l) (tl_line_cables l) (tl_line_structures l) (tl_origin l) a s
    (tl_points_alignment l) (tl_points_structures l) (tl_next l).
Definition with_points (l : Line) (a s : list (Point3d N)) : Line :=
  mkLine (tl_alignment l) (tl_line_cables l) (tl_line_structures l) (tl_origin l)
    (tl_is_updated_alignment l) (tl_is_updated_structures l) a s (tl_next l).

(** is_updated_points_xyz_structures_ = false: transmission_line.cc 118, 185, 304 *)
Definition stale_structures (l : Line) : Line :=
  with_flags l (tl_is_updated_alignment l) false.
(** both flags = false: transmission_line.cc 58-59, 148-149, 254-255, 519-520 *)
Definition stale_all (l : Line) : Line := with_flags l false false.

(** ** Queries on the containers *)

(** transmission_line.cc 231-250 (address comparison) *)
Fixpoint index_of_id (structs : list (nat * LineStructure N)) (id : nat) (pos : Z) : Z :=
  match structs with
  | [] => (-1)%Z
  | (i, _) :: rest => if Nat.eqb i id then pos else index_of_id rest id (pos + 1)
  end.

(** transmission_line.cc 231-250: an address the line does not own gives -1 *)
Definition IndexLineStructure (l : Line) (p : SPtr N) : Z :=
  match p with
  | SOwned id => index_of_id (tl_line_structures l) id 0
  | _ => (-1)%Z
  end.

(** connection.line_structure == address: transmission_line.cc 220, 538, 571 *)
Definition points_to (id : nat) (c : Connection N) : bool :=
  match cn_line_structure c with SOwned i => Nat.eqb i id | _ => false end.

(** transmission_line.cc 203-229 *)
Definition HasConnection (l : Line) (index_structure index_attachment : Z) : outcome bool :=
  do s <- next_deref (tl_line_structures l) index_structure;
  let id := fst s in
  Ok (existsb (fun line_cable =>
        existsb (fun c => points_to id c && (cn_index_attachment c =? index_attachment)%Z)
                (lc_connections line_cable))
      (tl_line_cables l)).

(** transmission_line.cc 625-633 *)
Definition IsValidLineCableIndex (l : Line) (i : Z) : bool := valid_index (tl_line_cables l) i.
Definition IsValidLineStructureIndex (l : Line) (i : Z) : bool := valid_index (tl_line_structures l) i.

(** ** Dependency clean-up *)

(** transmission_line.cc 523-551; the erase loop of one cable is a filter *)
Definition DeleteConnectionsFromStructure (cables : list LineCable) (id : nat) : list LineCable :=
  map (fun lc => mkLC (filter (fun c => negb (points_to id c)) (lc_connections lc)) (lc_payload lc))
      cables.

(** transmission_line.cc 553-583; the erase loop of one cable is a filter.
    [s] is the modified structure with identifier [id]. *)
Definition DeleteInvalidConnectionsFromStructure (cables : list LineCable) (id : nat)
    (s : LineStructure N) : outcome (list LineCable) :=
  match ls_structure s with
  | None => UB
  | Some st =>
      let size := Z.of_nat (length (st_attachments st)) in
      Ok (map (fun lc =>
            mkLC (filter (fun c => negb (points_to id c && (size <=? cn_index_attachment c)%Z))
                         (lc_connections lc)) (lc_payload lc)) cables)
  end.

(** transmission_line.cc 585-597; on an exception the cables erased so far
    stay erased *)
Fixpoint DeleteInvalidLineCables (env : Env N) (cables : list LineCable)
    : list LineCable * outcome unit :=
  match cables with
  | [] => ([], Ok tt)
  | lc :: rest =>
      match ValidateConnections env (lc_connections lc) with
      | Ok false => DeleteInvalidLineCables env rest
      | Ok true => let (rest', r) := DeleteInvalidLineCables env rest in (lc :: rest', r)
      | Throw => (cables, Throw)
      | UB => (cables, UB)
      end
  end.

(** transmission_line.cc 603-617: the loop *)
Fixpoint DeleteInvalidLineStructures_loop (smin smax : N)
    (structs : list (nat * LineStructure N)) (cables : list LineCable)
    : list (nat * LineStructure N) * list LineCable :=
  match structs with
  | [] => ([], cables)
  | (id, s) :: rest =>
      if (ls_station s <? smin) || (smax <? ls_station s) then
        DeleteInvalidLineStructures_loop smin smax rest (DeleteConnectionsFromStructure cables id)
      else
        let (rest', cables') := DeleteInvalidLineStructures_loop smin smax rest cables in
        ((id, s) :: rest', cables')
  end.

(** transmission_line.cc 599-618 *)
Definition DeleteInvalidLineStructures (l : Line) : Line * outcome unit :=
  match front (tl_alignment l), back (tl_alignment l) with
  | Ok pf, Ok pb =>
      let (structs, cables) :=
        DeleteInvalidLineStructures_loop (ap_station pf) (ap_station pb)
          (tl_line_structures l) (tl_line_cables l) in
      (with_cables (with_structures l structs (tl_next l)) cables, Ok tt)
  | _, _ => (l, UB)
  end.

(** DeleteInvalidLineCables() on the line: transmission_line.cc 585-597 *)
Definition line_DeleteInvalidLineCables (l : Line) : Line * outcome unit :=
  let (cables, r) := DeleteInvalidLineCables (tl_line_structures l) (tl_line_cables l) in
  (with_cables l cables, r).

(** DeleteInvalidLineStructures(); DeleteInvalidLineCables(); return v;
    as in transmission_line.cc 161-166 and 268-273 *)
Definition cleanup {A : Type} (l : Line) (v : A) : Line * outcome A :=
  match DeleteInvalidLineStructures l with
  | (l1, Ok _) =>
      match line_DeleteInvalidLineCables l1 with
      | (l2, Ok _) => (l2, Ok v)
      | (l2, Throw) => (l2, Throw)
      | (l2, UB) => (l2, UB)
      end
  | (l1, Throw) => (l1, Throw)
  | (l1, UB) => (l1, UB)
  end.

(** ** Edits *)

(** transmission_line.cc 57-61 *)
Definition AddAlignmentPoint (l : Line) (p : AlignmentPoint N) : Line * outcome Z :=
  let l0 := stale_all l in
  let (a, i) := AddPoint (tl_alignment l0) p in
  (with_alignment l0 a, Ok i).

(** transmission_line.cc 71-84: the check loop; [Ok false] is return -1 *)
Fixpoint AddLineCable_check (l : Line) (connections : list (Connection N)) : outcome bool :=
  match connections with
  | [] => Ok true
  | c :: rest =>
      let index_structure := IndexLineStructure l (cn_line_structure c) in
      if (index_structure =? -1)%Z then Ok false
      else
        do h <- HasConnection l index_structure (cn_index_attachment c);
        if h then Ok false else AddLineCable_check l rest
  end.

(** transmission_line.cc 91-108: the position search.  Dereferencing the first
    connection of a cable without connections is undefined. *)
Fixpoint AddLineCable_search (l : Line) (index_structure index_attachment : Z)
    (cables : list LineCable) (pos : nat) : outcome nat :=
  match cables with
  | [] => Ok pos
  | lc :: rest =>
      do c <- front (lc_connections lc);
      let index_structure_list := IndexLineStructure l (cn_line_structure c) in
      if ((index_structure <=? index_structure_list)
          && (index_attachment <? cn_index_attachment c))%Z%bool
      then Ok pos
      else AddLineCable_search l index_structure index_attachment rest (S pos)
  end.

(** transmission_line.cc 63-115 *)
Definition AddLineCable (l : Line) (lc : LineCable) : Line * outcome Z :=
  match ValidateConnections (tl_line_structures l) (lc_connections lc) with
  | Throw => (l, Throw)
  | UB => (l, UB)
  | Ok false => (l, Ok (-1)%Z)
  | Ok true =>
      match AddLineCable_check l (lc_connections lc) with
      | Throw => (l, Throw)
      | UB => (l, UB)
      | Ok false => (l, Ok (-1)%Z)
      | Ok true =>
          match front (lc_connections lc) with
          | Ok c =>
              let index_structure := IndexLineStructure l (cn_line_structure c) in
              match AddLineCable_search l index_structure (cn_index_attachment c)
                      (tl_line_cables l) 0 with
              | Ok pos => (with_cables l (insert_at pos lc (tl_line_cables l)), Ok (Z.of_nat pos))
              | Throw => (l, Throw)
              | UB => (l, UB)
              end
          | Throw => (l, Throw)
          | UB => (l, UB)
          end
      end
  end.

(** transmission_line.cc 126-138: the search loop; [None] is return -1 *)
Fixpoint AddLineStructure_search (s : LineStructure N)
    (structs : list (nat * LineStructure N)) (pos : nat) : option nat :=
  match structs with
  | [] => Some pos
  | (_, s_list) :: rest =>
      if ls_station s <? ls_station s_list then Some pos
      else if ls_station s =? ls_station s_list then None
      else AddLineStructure_search s rest (S pos)
  end.

(** transmission_line.cc 117-145 *)
Definition AddLineStructure (l : Line) (s : LineStructure N) : Line * outcome Z :=
  let l0 := stale_structures l in
  match IsValidStation (tl_alignment l0) (ls_station s) with
  | Throw => (l0, Throw)
  | UB => (l0, UB)
  | Ok false => (l0, Ok (-1)%Z)
  | Ok true =>
      match AddLineStructure_search s (tl_line_structures l0) 0 with
      | None => (l0, Ok (-1)%Z)
      | Some pos =>
          (with_structures l0 (insert_at pos (tl_next l0, s) (tl_line_structures l0))
             (S (tl_next l0)), Ok (Z.of_nat pos))
      end
  end.

(** (index == 0) || (index == size - 1): transmission_line.cc 151-156, 257-262 *)
Definition is_boundary_point (a : list (AlignmentPoint N)) (index : Z) : bool :=
  ((index =? 0) || (index =? Z.of_nat (length a) - 1))%Z%bool.

(** transmission_line.cc 147-167 *)
Definition DeleteAlignmentPoint (l : Line) (index : Z) : Line * outcome bool :=
  let l0 := stale_all l in
  let boundary := is_boundary_point (tl_alignment l0) index in
  let (a, is_deleted) := DeletePoint (tl_alignment l0) index in
  let l1 := with_alignment l0 a in
  if is_deleted && boundary then cleanup l1 is_deleted else (l1, Ok is_deleted).

(** transmission_line.cc 169-182 *)
Definition DeleteLineCable (l : Line) (index : Z) : Line * outcome bool :=
  if negb (IsValidLineCableIndex l index) then (l, Ok false)
  else (with_cables l (remove_at (Z.to_nat index) (tl_line_cables l)), Ok true).

(** transmission_line.cc 184-201 *)
Definition DeleteLineStructure (l : Line) (index : Z) : Line * outcome bool :=
  let l0 := stale_structures l in
  if negb (IsValidLineStructureIndex l0 index) then (l0, Ok false)
  else
    match next_deref (tl_line_structures l0) index with
    | Ok (id, _) =>
        let l1 := with_cables l0 (DeleteConnectionsFromStructure (tl_line_cables l0) id) in
        match line_DeleteInvalidLineCables l1 with
        | (l2, Ok _) =>
            (with_structures l2 (remove_at (Z.to_nat index) (tl_line_structures l2)) (tl_next l2),
             Ok true)
        | (l2, Throw) => (l2, Throw)
        | (l2, UB) => (l2, UB)
        end
    | Throw => (l0, Throw)
    | UB => (l0, UB)
    end.

(** transmission_line.cc 252-274 *)
Definition ModifyAlignmentPoint (l : Line) (index : Z) (p : AlignmentPoint N) : Line * outcome Z :=
  let l0 := stale_all l in
  let boundary := is_boundary_point (tl_alignment l0) index in
  let (a, index_new) := ModifyPoint (tl_alignment l0) index p in
  let l1 := with_alignment l0 a in
  if negb (index_new =? -1)%Z && boundary then cleanup l1 index_new else (l1, Ok index_new).

(** transmission_line.cc 276-300 *)
Definition ModifyLineCable (l : Line) (index : Z) (lc : LineCable) : Line * outcome Z :=
  if negb (IsValidLineCableIndex l index) then (l, Ok (-1)%Z)
  else
    match next_deref (tl_line_cables l) index with
    | Ok cache =>
        match DeleteLineCable l index with
        | (l1, Ok true) =>
            match AddLineCable l1 lc with
            | (l2, Ok index_new) =>
                if (index_new =? -1)%Z then
                  match AddLineCable l2 cache with
                  | (l3, Ok _) => (l3, Ok index_new)
                  | (l3, Throw) => (l3, Throw)
                  | (l3, UB) => (l3, UB)
                  end
                else (l2, Ok index_new)
            | (l2, Throw) => (l2, Throw)
            | (l2, UB) => (l2, UB)
            end
        | (l1, Ok false) => (l1, Ok (-1)%Z)
        | (l1, Throw) => (l1, Throw)
        | (l1, UB) => (l1, UB)
        end
    | Throw => (l, Throw)
    | UB => (l, UB)
    end.

(** transmission_line.cc 302-346 *)
Definition ModifyLineStructure (l : Line) (index : Z) (s : LineStructure N) : Line * outcome bool :=
  let l0 := stale_structures l in
  if negb (IsValidLineStructureIndex l0 index) then (l0, Ok false)
  else
    let structs := tl_line_structures l0 in
    match
     (do pf <- front (tl_alignment l0);
      do station_back <-
        (if (index =? 0)%Z then Ok (ap_station pf - #1)
         else omap (fun s => ls_station (snd s)) (next_deref structs (index - 1)));
      do pb <- back (tl_alignment l0);
      do station_ahead <-
        (if (index =? Z.of_nat (length structs) - 1)%Z then Ok (ap_station pb + #1)
         else omap (fun s => ls_station (snd s)) (next_deref structs (index + 1)));
      do old <- next_deref structs index;
      Ok (station_back, station_ahead, fst old))
    with
    | Ok (station_back, station_ahead, id) =>
        if (ls_station s <=? station_back) || (station_ahead <=? ls_station s)
        then (l0, Ok false)
        else
          let l1 := with_structures l0 (list_set (Z.to_nat index) (id, s) structs) (tl_next l0) in
          match DeleteInvalidConnectionsFromStructure (tl_line_cables l1) id s with
          | Ok cables =>
              match line_DeleteInvalidLineCables (with_cables l1 cables) with
              | (l2, Ok _) => (l2, Ok true)
              | (l2, Throw) => (l2, Throw)
              | (l2, UB) => (l2, UB)
              end
          | Throw => (l1, Throw)
          | UB => (l1, UB)
          end
    | Throw => (l0, Throw)
    | UB => (l0, UB)
    end.

(** transmission_line.cc 517-521 *)
Definition set_origin (l : Line) (o : Point3d N) : Line := stale_all (with_origin l o).

(** ** Coordinates *)

(** transmission_line.cc 685-700; returns the point and the changed vector *)
Definition PointXyzAlignmentFromVector (point_xyz : Point3d N)
    (distance_station distance_elevation rotation_xy : N) (vector_xy : Vector2d N)
    : Point3d N * Vector2d N :=
  let v1 := Vector2d_Rotate vector_xy rotation_xy in
  let v2 := Vector2d_Scale v1 (distance_station / Vector2d_Magnitude v1) in
  (mkPoint3d (p3x point_xyz + v2x v2) (p3y point_xyz + v2y v2)
             (p3z point_xyz + distance_elevation), v2).

(** transmission_line.cc 732-760: the loop after the first point *)
Fixpoint UpdatePointsXyzAlignment_loop (point_align_prev : AlignmentPoint N)
    (point_xyz_prev : Point3d N) (vector : Vector2d N) (points : list (AlignmentPoint N))
    : list (Point3d N) :=
  match points with
  | [] => []
  | point_align :: rest =>
      let (point, vector') :=
        PointXyzAlignmentFromVector point_xyz_prev
          (ap_station point_align - ap_station point_align_prev)
          (ap_elevation point_align - ap_elevation point_align_prev)
          (ap_rotation point_align_prev) vector in
      point :: UpdatePointsXyzAlignment_loop point_align point vector' rest
  end.

(** transmission_line.cc 723-763: the vector that results *)
Definition PointsAlignment (origin : Point3d N) (points : list (AlignmentPoint N))
    : list (Point3d N) :=
  match points with
  | [] => []
  | point_align :: rest =>
      origin :: UpdatePointsXyzAlignment_loop point_align origin (mkVector2d #1 #0) rest
  end.

(** transmission_line.cc 781-791 *)
Definition VectorXyAlignmentSegment (pts : list (Point3d N)) (index : Z) : outcome (Vector2d N) :=
  do point_back <- vec_at pts index;
  do point_ahead <- vec_at pts (index + 1);
  let v := mkVector2d (p3x point_ahead - p3x point_back) (p3y point_ahead - p3y point_back) in
  Ok (Vector2d_Scale v (#1 / Vector2d_Magnitude v)).

(** transmission_line.cc 635-683 *)
Definition PointXyzAlignmentFromStation (alignment : list (AlignmentPoint N))
    (pts : list (Point3d N)) (station : N) : outcome (Point3d N) :=
  do index_segment <- IndexSegment alignment station;
  if (index_segment =? -1)%Z then Ok Point3d_default
  else
    do point_xyz_back <- vec_at pts index_segment;
    do point_xyz_ahead <- vec_at pts (index_segment + 1);
    do point_align_back <- next_deref alignment index_segment;
    if station =? ap_station point_align_back then Ok point_xyz_back
    else
      do point_align_ahead <- next_deref alignment (index_segment + 1);
      if station =? ap_station point_align_ahead then Ok point_xyz_ahead
      else
        let distance_station := station - ap_station point_align_back in
        let slope := (ap_elevation point_align_ahead - ap_elevation point_align_back)
                     / (ap_station point_align_ahead - ap_station point_align_back) in
        let distance_elevation := slope * distance_station in
        do vector_alignment <-
          (if (index_segment =? 0)%Z then Ok (mkVector2d #1 #0)
           else VectorXyAlignmentSegment pts (index_segment - 1));
        Ok (fst (PointXyzAlignmentFromVector point_xyz_back distance_station
                   distance_elevation (ap_rotation point_align_back) vector_alignment)).

(** transmission_line.cc 770-776: the loop; the points pushed before an
    exception remain *)
Fixpoint UpdatePointsXyzLineStructures_loop (alignment : list (AlignmentPoint N))
    (pts : list (Point3d N)) (structs : list (nat * LineStructure N))
    : list (Point3d N) * outcome unit :=
  match structs with
  | [] => ([], Ok tt)
  | (_, s) :: rest =>
      match PointXyzAlignmentFromStation alignment pts (ls_station s) with
      | Ok p =>
          let (ps, r) := UpdatePointsXyzLineStructures_loop alignment pts rest in (p :: ps, r)
      | Throw => ([], Throw)
      | UB => ([], UB)
      end
  end.

(** transmission_line.cc 620-623 *)
Definition IsUpdated (l : Line) : bool :=
  tl_is_updated_alignment l || tl_is_updated_structures l.

(** transmission_line.cc 702-721 with 723-779.  Both update functions always
    return true, so the two "return false" branches are unreachable. *)
Definition Update (l : Line) : Line * outcome bool :=
  let l1 :=
    if tl_is_updated_alignment l then l
    else with_flags (with_points l (PointsAlignment (tl_origin l) (tl_alignment l))
                                 (tl_points_structures l))
                    true (tl_is_updated_structures l) in
  if tl_is_updated_structures l1 then (l1, Ok true)
  else
    let (ps, r) := UpdatePointsXyzLineStructures_loop (tl_alignment l1)
                     (tl_points_alignment l1) (tl_line_structures l1) in
    let l2 := with_points l1 (tl_points_alignment l1) ps in
    match r with
    | Ok _ => (with_flags l2 (tl_is_updated_alignment l2) true, Ok true)
    | Throw => (l2, Throw)
    | UB => (l2, UB)
    end.

(** if ((IsUpdated() == false) && (Update() == false)) return fail; ...
    transmission_line.cc 351, 361, 371, 381, 397 *)
Definition query {A : Type} (l : Line) (fail : A) (k : Line -> outcome A) : Line * outcome A :=
  if IsUpdated l then (l, k l)
  else
    match Update l with
    | (l1, Ok true) => (l1, k l1)
    | (l1, Ok false) => (l1, Ok fail)
    | (l1, Throw) => (l1, Throw)
    | (l1, UB) => (l1, UB)
    end.

(** transmission_line.cc 348-356; [None] is nullptr *)
Definition PointsXyzAlignment (l : Line) : Line * outcome (option (list (Point3d N))) :=
  query l None (fun l => Ok (Some (tl_points_alignment l))).

(** transmission_line.cc 358-366 *)
Definition PointsXyzLineStructures (l : Line) : Line * outcome (option (list (Point3d N))) :=
  query l None (fun l => Ok (Some (tl_points_structures l))).

(** transmission_line.cc 368-376 *)
Definition PointXyzAlignment (l : Line) (station : N) : Line * outcome (Point3d N) :=
  query l Point3d_default (fun l =>
    PointXyzAlignmentFromStation (tl_alignment l) (tl_points_alignment l) station).

(** transmission_line.cc 378-391 *)
Definition PointXyzLineStructure (l : Line) (index : Z) : Line * outcome (Point3d N) :=
  query l Point3d_default (fun l =>
    if negb (IsValidLineStructureIndex l index) then Ok Point3d_default
    else vec_at (tl_points_structures l) index).

(** transmission_line.cc 793-836; [s] is the structure at the index *)
Definition VectorXyAlignmentStructure (alignment : list (AlignmentPoint N))
    (pts : list (Point3d N)) (s : LineStructure N) : outcome (Vector2d N) :=
  do index_segment <- IndexSegment alignment (ls_station s);
  do pf <- front alignment;
  do pb <- back alignment;
  if (ls_station s =? ap_station pf) || (ls_station s =? ap_station pb)
  then VectorXyAlignmentSegment pts index_segment
  else if negb (existsb (fun p => ls_station s =? ap_station p) alignment)
  then VectorXyAlignmentSegment pts index_segment
  else
    do vector_back <- VectorXyAlignmentSegment pts index_segment;
    do vector_ahead <- VectorXyAlignmentSegment pts (index_segment + 1);
    let v := mkVector2d (v2x vector_back + v2x vector_ahead) (v2y vector_back + v2y vector_ahead) in
    Ok (Vector2d_Scale v (#1 / Vector2d_Magnitude v)).

(** transmission_line.cc 393-457 *)
Definition PointXyzLineStructureAttachment (l : Line) (index_structure index_attachment : Z)
    : Line * outcome (Point3d N) :=
  query l Point3d_default (fun l =>
    if negb (IsValidLineStructureIndex l index_structure) then Ok Point3d_default
    else
      do node <- next_deref (tl_line_structures l) index_structure;
      let s := snd node in
      match ls_structure s with
      | None => UB
      | Some st =>
          if negb (valid_index (st_attachments st) index_attachment) then Ok Point3d_default
          else
            do a <- vec_at (st_attachments st) index_attachment;
            let v := mkVector2d (sa_offset_longitudinal a) (fopp (sa_offset_transverse a)) in
            let v := Vector2d_Rotate v (ls_rotation s) in
            let px := #0 + v2x v in
            let py := #0 + (v2y v - ls_offset s) in
            let pz := #0 + (ls_height_adjustment s + st_height st + sa_offset_vertical_top a) in
            do va <- VectorXyAlignmentStructure (tl_alignment l) (tl_points_alignment l) s;
            let v := Vector2d_Rotate (mkVector2d px py) (Vector2d_Angle va false) in
            do base <- vec_at (tl_points_structures l) index_structure;
            Ok (mkPoint3d (v2x v + p3x base) (v2y v + p3y base) (pz + p3z base))
      end).

(** transmission_line.cc 459-499.  [parts] is the outcome of validating the
    alignment, the structures and the cables (466-486), which does not change
    the line; it is an arbitrary argument here. *)
Definition Line_Validate (l : Line) (parts : outcome bool) : Line * outcome bool :=
  match parts with
  | Ok is_valid =>
      match Update l with
      | (l1, Ok updated) => (l1, Ok (is_valid && updated))
      | (l1, Throw) => (l1, Throw)
      | (l1, UB) => (l1, UB)
      end
  | Throw => (l, Throw)
  | UB => (l, UB)
  end.

(** ** Copying *)

(** transmission_line.cc 24: the nodes of the copied list get new addresses *)
Definition renumber (start : nat) (structs : list (nat * LineStructure N))
    : list (nat * LineStructure N) :=
  combine (seq start (length structs)) (map snd structs).

(** transmission_line.cc 34-48: the loop over the connections of one cable.
    [env] holds the structures of both lines, which are all alive. *)
Fixpoint copy_connections (that : Line) (env : Env N) (new_structs : list (nat * LineStructure N))
    (todo : nat) (index : Z) (connections : list (Connection N)) : outcome (list (Connection N)) :=
  match todo with
  | O => Ok connections
  | S todo' =>
      do connection <- next_deref connections index;
      let index_structure := IndexLineStructure that (cn_line_structure connection) in
      do structure <- next_deref new_structs index_structure;
      let connection' := mkConn (cn_index_attachment connection) (SOwned (fst structure)) in
      do r <- ModifyConnection env connections index connection';
      copy_connections that env new_structs todo' (index + 1) (fst r)
  end.

(** transmission_line.cc 28-49: the loop over the cables *)
Fixpoint copy_cables (that : Line) (env : Env N) (new_structs : list (nat * LineStructure N))
    (cables : list LineCable) : outcome (list LineCable) :=
  match cables with
  | [] => Ok []
  | lc :: rest =>
      do cs <- copy_connections that env new_structs (length (lc_connections lc)) 0 (lc_connections lc);
      do rest' <- copy_cables that env new_structs rest;
      Ok (mkLC cs (lc_payload lc) :: rest')
  end.

(** transmission_line.cc 16-52, with [this] and [that] different objects: the
    cached point vectors of [this] are not assigned.  The new nodes get
    addresses that neither line uses. *)
Definition assign (this that : Line) : outcome Line :=
  let start := Nat.max (tl_next this) (tl_next that) in
  let structs := renumber start (tl_line_structures that) in
  do cables <- copy_cables that (tl_line_structures that ++ structs) structs (tl_line_cables that);
  Ok (mkLine (tl_alignment that) cables structs (tl_origin that)
        (tl_is_updated_alignment that) (tl_is_updated_structures that)
        (tl_points_alignment this) (tl_points_structures this)
        (start + length structs)).

(** transmission_line.cc 11-14: copy constructor *)
Definition copy (that : Line) : outcome Line := assign Line_empty that.

(** ** Histories *)

(** A LineCable is filled by calling AddConnection for each connection
    (line_cable.cc 26-54) while the line is in its current state. *)
Fixpoint build_cable (env : Env N) (acc : list (Connection N)) (requests : list (Connection N))
    : outcome (list (Connection N)) :=
  match requests with
  | [] => Ok acc
  | c :: rest => do r <- AddConnection env acc c; build_cable env (fst r) rest
  end.

(** The public calls of transmission_line.h on one line. *)
Inductive LineCall : Type :=
| CAddAlignmentPoint (p : AlignmentPoint N)
| CAddLineCable (requests : list (Connection N)) (payload : P)
| CAddLineStructure (s : LineStructure N)
| CDeleteAlignmentPoint (index : Z)
| CDeleteLineCable (index : Z)
| CDeleteLineStructure (index : Z)
| CModifyAlignmentPoint (index : Z) (p : AlignmentPoint N)
| CModifyLineCable (index : Z) (requests : list (Connection N)) (payload : P)
| CModifyLineStructure (index : Z) (s : LineStructure N)
| CSetOrigin (o : Point3d N)
| CPointsXyzAlignment
| CPointsXyzLineStructures
| CPointXyzAlignment (station : N)
| CPointXyzLineStructure (index : Z)
| CPointXyzLineStructureAttachment (index_structure index_attachment : Z)
| CHasConnection (index_structure index_attachment : Z)
| CValidate (parts : outcome bool).

(** Forgetting the returned value (not part of the code). *)
Definition drop {A : Type} (r : Line * outcome A) : Line * outcome unit :=
  (fst r, omap (fun _ => tt) (snd r)).

(** One call: the state after it and how it ended. *)
Definition line_step (l : Line) (c : LineCall) : Line * outcome unit :=
  match c with
  | CAddAlignmentPoint p => drop (AddAlignmentPoint l p)
  | CAddLineCable requests payload =>
      match build_cable (tl_line_structures l) [] requests with
      | Ok cs => drop (AddLineCable l (mkLC cs payload))
      | Throw => (l, Throw)
      | UB => (l, UB)
      end
  | CAddLineStructure s => drop (AddLineStructure l s)
  | CDeleteAlignmentPoint i => drop (DeleteAlignmentPoint l i)
  | CDeleteLineCable i => drop (DeleteLineCable l i)
  | CDeleteLineStructure i => drop (DeleteLineStructure l i)
  | CModifyAlignmentPoint i p => drop (ModifyAlignmentPoint l i p)
  | CModifyLineCable i requests payload =>
      match build_cable (tl_line_structures l) [] requests with
      | Ok cs => drop (ModifyLineCable l i (mkLC cs payload))
      | Throw => (l, Throw)
      | UB => (l, UB)
      end
  | CModifyLineStructure i s => drop (ModifyLineStructure l i s)
  | CSetOrigin o => (set_origin l o, Ok tt)
  | CPointsXyzAlignment => drop (PointsXyzAlignment l)
  | CPointsXyzLineStructures => drop (PointsXyzLineStructures l)
  | CPointXyzAlignment station => drop (PointXyzAlignment l station)
  | CPointXyzLineStructure i => drop (PointXyzLineStructure l i)
  | CPointXyzLineStructureAttachment i j => drop (PointXyzLineStructureAttachment l i j)
  | CHasConnection i j => drop (l, HasConnection l i j)
  | CValidate parts => drop (Line_Validate l parts)
  end.

(** A history from the empty line.  A thrown exception is caught by the caller
    and the history goes on; nothing can be said after undefined behaviour. *)
Fixpoint line_run_from (l : Line) (calls : list LineCall) : option Line :=
  match calls with
  | [] => Some l
  | c :: rest =>
      match line_step l c with
      | (l', Ok _) => line_run_from l' rest
      | (l', Throw) => line_run_from l' rest
      | (_, UB) => None
      end
  end.

(** From the default-constructed line, transmission_line.cc 6-9. *)
Definition line_run (calls : list LineCall) : option Line := line_run_from Line_empty calls.

End TransmissionLine.

Arguments LineCable : clear implicits.
Arguments Line : clear implicits.
Arguments LineCall : clear implicits.
