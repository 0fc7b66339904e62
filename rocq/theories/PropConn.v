(** Properties C21 (hardware slots of a line structure) and C22 (connections of a
    line cable), for IEEE binary64. *)
From Coq Require Import ZArith Bool List Lia.
From Flocq Require Import IEEE754.BinarySingleNaN.
From Verif Require Import Num NumFacts ModelBase ModelAlignment ModelLine SpecLine SpecTransmission
  ProofConn SampleLine.
Import ListNotations.

(** C21: after any history there is one slot per attachment. *)
Theorem structure_slots_match :
  forall lm (calls : list (LSCall (B64 lm))), slots_match (ls_run LineStructure_default calls).
Proof. exact (fun lm calls => ls_history_slots calls). Qed.
Print Assumptions structure_slots_match.

(** set_structure: surviving slots keep their hardware, new ones are empty. *)
Theorem structure_set_structure_slots :
  forall lm (s : LineStructure (B64 lm)) st k,
    let s' := set_structure s st in
    slots_match s' /\ ls_structure s' = st /\
    ((k < length (ls_hardwares s'))%nat ->
       nth_error (ls_hardwares s') k =
         if Nat.ltb k (length (ls_hardwares s)) then nth_error (ls_hardwares s) k else Some None).
Proof. exact (fun lm s st k => set_structure_slots s st k). Qed.
Print Assumptions structure_set_structure_slots.

(** AttachHardware and DetachHardware change exactly the given slot. *)
Theorem structure_attach_exact :
  forall lm (calls : list (LSCall (B64 lm))) i h s' r,
    let s := ls_run LineStructure_default calls in
    AttachHardware s i h = (s', r) ->
    r = Ok tt /\ (~ valid_attachment s i -> s' = s) /\
    (valid_attachment s i -> ls_structure s' = ls_structure s /\ ls_station s' = ls_station s /\
       length (ls_hardwares s') = length (ls_hardwares s) /\
       forall k, nth_error (ls_hardwares s') k =
         if Nat.eqb k (Z.to_nat i) then Some h else nth_error (ls_hardwares s) k).
Proof. exact (fun lm calls i h s' r => attach_slots _ i h s' r (ls_history_slots calls)). Qed.
Print Assumptions structure_attach_exact.

Theorem structure_detach_exact :
  forall lm (calls : list (LSCall (B64 lm))) i s' r,
    let s := ls_run LineStructure_default calls in
    DetachHardware s i = (s', r) ->
    r = Ok tt /\ (~ valid_attachment s i -> s' = s) /\
    (valid_attachment s i -> ls_structure s' = ls_structure s /\ ls_station s' = ls_station s /\
       length (ls_hardwares s') = length (ls_hardwares s) /\
       forall k, nth_error (ls_hardwares s') k =
         if Nat.eqb k (Z.to_nat i) then Some None else nth_error (ls_hardwares s) k).
Proof. exact (fun lm calls i s' r => detach_slots _ i s' r (ls_history_slots calls)). Qed.
Print Assumptions structure_detach_exact.

(** C22: after any history the connections are sorted. *)
Theorem cable_connections_sorted :
  forall lm (env : Env (B64 lm)) calls, Forall (conn_call_ok (N := B64 lm) num64 env) calls ->
    exists cs ss, conn_run env [] calls = Ok cs /\ conn_stations env cs ss /\
      strictly_increasing (N := B64 lm) ss.
Proof. exact (fun lm env calls => @conn_history (B64 lm) num64 (B64_ord lm) env calls). Qed.
Print Assumptions cable_connections_sorted.

(** AddConnection rejects null and duplicate stations, and inserts otherwise. *)
Theorem cable_add_connection_contract :
  forall lm (env : Env (B64 lm)) calls k cs, Forall (conn_call_ok (N := B64 lm) num64 env) calls ->
    conn_run env [] calls = Ok cs -> conn_arg_ok (N := B64 lm) num64 env k ->
    exists cs' j, AddConnection env cs k = Ok (cs', j) /\
      ((j = (-1)%Z /\ cs' = cs /\
        (cn_line_structure k = SNull \/
         exists s c s', points_at env (cn_line_structure k) s /\ In c cs /\
           points_at env (cn_line_structure c) s' /\ feqb (ls_station s) (ls_station s') = true)) \/
       (is_insertion cs j k cs' /\
        exists s, points_at env (cn_line_structure k) s /\
          forall c s', In c cs -> points_at env (cn_line_structure c) s' ->
            feqb (ls_station s) (ls_station s') = false)).
Proof. exact (fun lm env calls k cs => @conn_add_history (B64 lm) num64 (B64_ord lm) env calls k cs). Qed.
Print Assumptions cable_add_connection_contract.

(** ModifyConnection is all-or-nothing. *)
Theorem cable_modify_connection_contract :
  forall lm (env : Env (B64 lm)) calls i k cs, Forall (conn_call_ok (N := B64 lm) num64 env) calls ->
    conn_run env [] calls = Ok cs -> conn_arg_ok (N := B64 lm) num64 env k ->
    exists cs' j, ModifyConnection env cs i k = Ok (cs', j) /\
      ((j = (-1)%Z /\ cs' = cs) \/
       (exists old mid, is_removal cs i old mid /\ is_insertion mid j k cs')).
Proof. exact (fun lm env calls i k cs => @conn_modify_history (B64 lm) num64 (B64_ord lm) env calls i k cs). Qed.
Print Assumptions cable_modify_connection_contract.

(** ** Cases *)
Section Example_conn.
Variable lm : Libm.
Let env : Env (B64 lm) := [(0%nat, s_ls lm 10 2); (1%nat, s_ls lm 50 2); (2%nat, s_ls lm 90 2)].

Definition obs_conns (r : outcome (list (Connection (B64 lm)))) : outcome (list (Z * Z)) :=
  omap (map (fun c => (match cn_line_structure c with SOwned id => Z.of_nat id | _ => (-1)%Z end,
      cn_index_attachment c))) r.

Let calls : list (ConnCall (B64 lm)) :=
  [CallAddConnection (s_conn lm 2 0); CallAddConnection (s_conn lm 0 1); CallAddConnection (s_conn lm 2 1);
   CallAddConnection (mkConn 0 SNull); CallDeleteConnection 5; CallModifyConnection 1 (s_conn lm 1 0)].

Example conn_case_args : Forall (conn_call_ok (N := B64 lm) num64 env) calls.
Proof.
  assert (A : forall id att, (id < 3)%nat -> conn_arg_ok (N := B64 lm) num64 env (s_conn lm id att)).
  { intros id att H. right.
    destruct id as [|[|[|id]]]; [| | |lia]; (eexists; split; [right; eexists; split; reflexivity|reflexivity]). }
  unfold calls. repeat apply Forall_cons; try exact I; try (apply A; lia); [left; reflexivity|constructor].
Qed.

Example conn_case : obs_conns (conn_run env [] calls) = Ok [(0, 1); (1, 0)]%Z /\
  omap snd (AddConnection env [s_conn lm 0 1] (s_conn lm 0 2)) = Ok (-1)%Z.
Proof. split; vm_compute; reflexivity. Qed.

Example slots_case :
  let s := ls_run LineStructure_default
    [LSset_structure (Some (s_st lm 3)); LSAttachHardware 1 (Some (s_hw lm)); LSAttachHardware 7 (Some (s_hw lm));
     LSset_structure (Some (s_st lm 2)); LSAttachHardware 0 (Some (s_hw lm)); LSDetachHardware 0;
     LSset_structure (Some (s_st lm 4))] in
  map (fun h => match h with Some _ => true | None => false end) (ls_hardwares s) = [false; true; false; false].
Proof. vm_compute. reflexivity. Qed.
End Example_conn.
