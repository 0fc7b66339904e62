(** C200: the order of adding connections does not matter, and adding one can be undone. *)
From Coq Require Import ZArith Bool List Lia Permutation.
From Flocq Require Import IEEE754.BinarySingleNaN.
From Verif Require Import Num NumFacts ModelBase ModelAlignment ModelLine SpecLine SpecTransmission
  ProofConn ProofConnOrder SampleLine.
Import ListNotations.

(** Connections to structures at different stations may be added in any order; all are
    accepted.  DeleteConnection of the index AddConnection returned restores the cable. *)
Theorem cable_connections_order_and_undo :
  forall lm (env : Env (B64 lm)) calls cs, Forall (conn_call_ok (N := B64 lm) num64 env) calls ->
    conn_run env [] calls = Ok cs ->
    (forall ks js,
       (forall k, In k ks -> exists s, points_at env (cn_line_structure k) s /\ num64 (ls_station s)) ->
       (forall i j c d s t, i <> j -> nth_error (ks ++ cs) i = Some c -> nth_error (ks ++ cs) j = Some d ->
          points_at env (cn_line_structure c) s -> points_at env (cn_line_structure d) t ->
          feqb (n := B64 lm) (ls_station s) (ls_station t) = false) ->
       Permutation ks js ->
       exists cs', conn_run env cs (map CallAddConnection ks) = Ok cs' /\
         conn_run env cs (map CallAddConnection js) = Ok cs' /\ Permutation cs' (ks ++ cs)) /\
    (forall k cs' j, conn_arg_ok (N := B64 lm) num64 env k -> AddConnection env cs k = Ok (cs', j) -> j <> (-1)%Z ->
       DeleteConnection cs' j = (cs, true)).
Proof. exact (fun lm => @connections_laws (B64 lm) num64 (B64_ord lm)). Qed.
Print Assumptions cable_connections_order_and_undo.

(** Structures at 10, 50 and 90, one of them connected; the others are added in any order. *)
Example cable_connections_order_and_undo_case : forall lm,
  let env : Env (B64 lm) := [(0%nat, s_ls lm 10 2); (1%nat, s_ls lm 50 2); (2%nat, s_ls lm 90 2)] in
  let calls := [CallAddConnection (s_conn lm 1 0)] in
  let ks := [s_conn lm 2 1; s_conn lm 0 1] in
  Forall (conn_call_ok (N := B64 lm) num64 env) calls /\
  conn_run env [] calls = Ok [s_conn lm 1 0] /\
  (forall k, In k ks -> exists s, points_at env (cn_line_structure k) s /\ num64 (ls_station s)) /\
  (forall i j c d s t, i <> j -> nth_error (ks ++ [s_conn lm 1 0]) i = Some c ->
     nth_error (ks ++ [s_conn lm 1 0]) j = Some d ->
     points_at env (cn_line_structure c) s -> points_at env (cn_line_structure d) t ->
     feqb (n := B64 lm) (ls_station s) (ls_station t) = false) /\
  Permutation ks [s_conn lm 0 1; s_conn lm 2 1] /\
  omap snd (AddConnection env [s_conn lm 1 0] (s_conn lm 2 1)) = Ok 1%Z.
Proof.
  intros lm env calls ks.
  assert (L : forall id z att, lookup env id = Some (s_ls lm z 2) -> leads env (s_conn lm id att) (fofZ (N := B64 lm) z)).
  { intros id z att E. exists (s_ls lm z 2). split; [right; exists id; split; [reflexivity|exact E]|reflexivity]. }
  split; [|split; [|split; [|split; [|split]]]].
  - constructor; [|constructor]. right. exists (s_ls lm 50 2). split; [right; exists 1%nat; split; reflexivity|reflexivity].
  - reflexivity.
  - intros k [<-|[<-|[]]]; eexists; (split; [right; eexists; split; reflexivity|reflexivity]).
  - intros i j c d s t Hij Hi Hj Hs Ht.
    assert (A : apart_conns env [s_conn lm 2 1; s_conn lm 0 1; s_conn lm 1 0]).
    { apply (apart_conns_three env _ _ _ (fofZ (N := B64 lm) 90) (fofZ (N := B64 lm) 10) (fofZ (N := B64 lm) 50));
        [apply L; reflexivity..|vm_compute; reflexivity|vm_compute; reflexivity|vm_compute; reflexivity
        |vm_compute; reflexivity|vm_compute; reflexivity|vm_compute; reflexivity]. }
    apply (A i j c d); auto; [exists s; auto|exists t; auto].
  - apply perm_swap.
  - vm_compute. reflexivity.
Qed.
