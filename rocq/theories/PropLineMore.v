(** Properties C06, C10, C13, C14, C15, C16 (the parts that hold; the rest is
    refuted in PropLineRefuted.v), C18, C54-C57. *)
From Coq Require Import ZArith Bool List Reals Lia.
From Flocq Require Import IEEE754.BinarySingleNaN.
From Verif Require Import Num NumFacts ModelBase ModelAlignment ModelLine SpecLine SpecTransmission
  ProofLine ProofLineInv ProofLineFacts ProofLineCoord ProofLineSafe ProofLineQuery ProofLineReal
  ProofConn ProofLineCopy ProofLineContracts ProofLineStale SampleLine.
Import ListNotations.

(** C06, if no ModifyLineStructure of the history asks for a station off the
    alignment.  Missing: ModifyLineStructure does not check this itself. *)
Theorem line_structures_on_alignment_partial :
  forall lm P calls (l : Line (B64 lm) P), Forall (call_args_ok (N := B64 lm) num64) calls ->
    modifies_on_alignment Line_empty calls -> line_run calls = Some l ->
    Forall (fun s => on_alignment (tl_alignment l) (ls_station s)) (structures_of l).
Proof. exact (fun lm P calls l => @line_on_alignment (B64 lm) num64 (B64_ord lm) P calls l). Qed.
Print Assumptions line_structures_on_alignment_partial.

(** C06, for every history, in exact arithmetic: the station is less than 1 off
    the alignment. *)
Theorem line_structures_near_alignment_partial :
  forall P (l : Line RNum P), reachable (N := RNum) (fun _ => True) l ->
    Forall (fun s : LineStructure RNum => exists first last, nth_error (tl_alignment l) 0 = Some first /\
      nth_error (tl_alignment l) (length (tl_alignment l) - 1) = Some last /\
      (ap_station first - 1 < ls_station s /\ ls_station s < ap_station last + 1)%R) (structures_of l).
Proof. exact (fun P l => @line_near_alignment P l). Qed.
Print Assumptions line_structures_near_alignment_partial.

(** C10, for one AddLineCable to a line in order, if every cable that starts at a
    later structure starts at a higher attachment index.  Missing: other
    additions (they can break the order). *)
Theorem line_add_cable_order_partial :
  forall lm P (l l' : Line (B64 lm) P) lc k i j, constructible (N := B64 lm) num64 l ->
    cables_in_order l -> starts_at l lc i j -> AddLineCable l lc = (l', Ok k) -> k <> (-1)%Z ->
    (forall lc2 i2 j2, In lc2 (tl_line_cables l) -> starts_at l lc2 i2 j2 -> (i < i2)%nat -> (j < j2)%Z) ->
    cables_in_order l'.
Proof.
  exact (fun lm P l l' lc k i j H => @AddLineCable_order (B64 lm) num64 P l lc l' k i j
    (@constructible_Inv (B64 lm) num64 (B64_ord lm) P l H)).
Qed.
Print Assumptions line_add_cable_order_partial.

(** C13, for histories whose last structure edit is preceded by an alignment edit
    (or set_origin) with no query in between, and alignments of at least two
    points; after it any queries and cable calls.  Missing: structure edits
    after a query (refuted), alignments of one point. *)
Theorem line_structure_points_current_partial :
  forall lm P hist e mods tail (l l0 : Line (B64 lm) P),
    Forall (call_args_ok (N := B64 lm) num64) (hist ++ e :: mods ++ tail) -> is_alignment_edit e = true ->
    Forall (fun c => is_query c = false) mods ->
    Forall (fun c => is_query c || is_cable_call c = true) tail ->
    line_run (hist ++ e :: mods ++ tail) = Some l -> (2 <= length (tl_alignment l))%nat ->
    fresh_line l0 -> tl_alignment l0 = tl_alignment l -> tl_origin l0 = tl_origin l ->
    structures_of l0 = structures_of l ->
    snd (PointsXyzLineStructures l) = snd (PointsXyzLineStructures l0) /\
    (exists pts, snd (PointsXyzLineStructures l) = Ok (Some pts) /\ length pts = length (structures_of l)) /\
    (forall i, snd (PointXyzLineStructure l i) = snd (PointXyzLineStructure l0 i)) /\
    (forall i j, snd (PointXyzLineStructureAttachment l i j) = snd (PointXyzLineStructureAttachment l0 i j)).
Proof.
  exact (fun lm P hist e mods tail l l0 =>
    @structure_answers_current (B64 lm) num64 (B64_ord lm) P hist e mods tail l l0).
Qed.
Print Assumptions line_structure_points_current_partial.

(** C14, for alignments of at least two points: any two histories that lead to the
    same alignment and origin give the same answers.  Missing: shorter alignments
    with a structure, and copied lines (both refuted). *)
Theorem line_alignment_points_current_partial :
  forall lm P (l l0 : Line (B64 lm) P), reachable (N := B64 lm) num64 l -> reachable (N := B64 lm) num64 l0 ->
    (2 <= length (tl_alignment l))%nat -> tl_alignment l0 = tl_alignment l -> tl_origin l0 = tl_origin l ->
    snd (PointsXyzAlignment l) = snd (PointsXyzAlignment l0) /\
    (exists pts, snd (PointsXyzAlignment l) = Ok (Some pts) /\ length pts = length (tl_alignment l)) /\
    (forall st, snd (PointXyzAlignment l st) = snd (PointXyzAlignment l0 st)).
Proof. exact (fun lm P l l0 => @alignment_answers_two (B64 lm) num64 (B64_ord lm) P l l0). Qed.
Print Assumptions line_alignment_points_current_partial.

(** C14, for every alignment: answers given without an exception agree. *)
Theorem line_alignment_points_agree_partial :
  forall lm P (l l0 : Line (B64 lm) P), reachable (N := B64 lm) num64 l -> reachable (N := B64 lm) num64 l0 ->
    tl_alignment l0 = tl_alignment l -> tl_origin l0 = tl_origin l ->
    (forall v v0, snd (PointsXyzAlignment l) = Ok v -> snd (PointsXyzAlignment l0) = Ok v0 -> v = v0) /\
    (forall st v v0, snd (PointXyzAlignment l st) = Ok v -> snd (PointXyzAlignment l0 st) = Ok v0 -> v = v0).
Proof.
  exact (fun lm P l l0 H H0 => alignment_answers l l0
    (@reachable_Inv2 (B64 lm) num64 P l H) (@reachable_Inv2 (B64 lm) num64 P l0 H0)).
Qed.
Print Assumptions line_alignment_points_agree_partial.

(** C15, content: assignment and copy construction always succeed; same alignment,
    origin and structures, the cables have the same payload, and each connection
    refers to the structure at the same position of the copy, which the original
    does not own. *)
Theorem line_copy_content_partial :
  forall lm P (this l : Line (B64 lm) P), constructible (N := B64 lm) num64 l ->
    exists l', assign this l = Ok l' /\
      tl_alignment l' = tl_alignment l /\ tl_origin l' = tl_origin l /\ structures_of l' = structures_of l /\
      Forall2 (fun lc lc' => lc_payload lc' = lc_payload lc /\
                             Forall2 (rewired l l') (lc_connections lc) (lc_connections lc'))
        (tl_line_cables l) (tl_line_cables l') /\
      (forall i j id, address_at l i id -> ~ address_at l' j id) /\
      (forall i j id, address_at this i id -> (id < tl_next this)%nat -> ~ address_at l' j id).
Proof.
  exact (fun lm P this l H => @assign_content (B64 lm) num64 (B64_ord lm) P this l
    (@constructible_Inv (B64 lm) num64 (B64_ord lm) P l H)).
Qed.
Print Assumptions line_copy_content_partial.

(** C15, coordinates, for lines that were never asked for coordinates.  Missing:
    lines that were (refuted). *)
Theorem line_copy_coordinates_partial :
  forall lm P (l l' : Line (B64 lm) P), fresh_line l -> constructible (N := B64 lm) num64 l ->
    copy l = Ok l' ->
    snd (PointsXyzAlignment l') = snd (PointsXyzAlignment l) /\
    snd (PointsXyzLineStructures l') = snd (PointsXyzLineStructures l) /\
    (forall st, snd (PointXyzAlignment l' st) = snd (PointXyzAlignment l st)) /\
    (forall i, snd (PointXyzLineStructure l' i) = snd (PointXyzLineStructure l i)) /\
    (forall i j, snd (PointXyzLineStructureAttachment l' i j) = snd (PointXyzLineStructureAttachment l i j)).
Proof. exact (fun lm P l l' => @copy_answers (B64 lm) num64 (B64_ord lm) P l l'). Qed.
Print Assumptions line_copy_coordinates_partial.

(** C16, for calls that respect [call_safe].  Missing: the calls that do not
    (refuted), and lines that were copied. *)
Theorem line_no_undefined_behaviour_partial :
  forall lm P (l : Line (B64 lm) P) c, reachable (N := B64 lm) num64 l ->
    call_args_ok (N := B64 lm) num64 c -> call_safe l c -> snd (line_step l c) <> UB.
Proof.
  exact (fun lm P l c H => @step_safe (B64 lm) num64 (B64_ord lm) P l c
    (@reachable_Inv (B64 lm) num64 (B64_ord lm) P l H) (@reachable_Inv2 (B64 lm) num64 P l H)).
Qed.
Print Assumptions line_no_undefined_behaviour_partial.

(** C18 *)
Theorem line_delete_alignment_point_exact :
  forall lm P (l l' : Line (B64 lm) P) i b, constructible (N := B64 lm) num64 l ->
    DeleteAlignmentPoint l i = (l', Ok b) ->
    (b = false /\ ~ (0 <= i < Z.of_nat (length (tl_alignment l)))%Z) \/
    (b = true /\ (exists p, is_removal (tl_alignment l) i p (tl_alignment l')) /\
     ((i <> 0%Z /\ i <> (Z.of_nat (length (tl_alignment l)) - 1)%Z) ->
        tl_line_structures l' = tl_line_structures l /\ tl_line_cables l' = tl_line_cables l) /\
     ((i = 0%Z \/ i = (Z.of_nat (length (tl_alignment l)) - 1)%Z) ->
        exists first last, nth_error (tl_alignment l') 0 = Some first /\
          nth_error (tl_alignment l') (length (tl_alignment l') - 1) = Some last /\
          tl_line_structures l' = filter (fun n => between first last (snd n)) (tl_line_structures l) /\
          tl_line_cables l' = restrict_cables (in_line l') (tl_line_cables l))).
Proof.
  exact (fun lm P l l' i b H => @DeleteAlignmentPoint_exact (B64 lm) num64 (B64_ord lm) P l i l' b
    (@constructible_Inv (B64 lm) num64 (B64_ord lm) P l H)).
Qed.
Print Assumptions line_delete_alignment_point_exact.

Theorem line_modify_alignment_point_exact :
  forall lm P (l l' : Line (B64 lm) P) i (p : AlignmentPoint (B64 lm)) j, constructible (N := B64 lm) num64 l -> num64 (ap_station p) ->
    ModifyAlignmentPoint l i p = (l', Ok j) -> j <> (-1)%Z ->
    (exists old mid, is_removal (tl_alignment l) i old mid /\ is_insertion mid j p (tl_alignment l')) /\
    ((i <> 0%Z /\ i <> (Z.of_nat (length (tl_alignment l)) - 1)%Z) ->
       tl_line_structures l' = tl_line_structures l /\ tl_line_cables l' = tl_line_cables l) /\
    ((i = 0%Z \/ i = (Z.of_nat (length (tl_alignment l)) - 1)%Z) ->
       exists first last, nth_error (tl_alignment l') 0 = Some first /\
         nth_error (tl_alignment l') (length (tl_alignment l') - 1) = Some last /\
         tl_line_structures l' = filter (fun n => between first last (snd n)) (tl_line_structures l) /\
         tl_line_cables l' = restrict_cables (in_line l') (tl_line_cables l)).
Proof.
  exact (fun lm P l l' i p j H => @ModifyAlignmentPoint_exact (B64 lm) num64 (B64_ord lm) P l i p l' j
    (@constructible_Inv (B64 lm) num64 (B64_ord lm) P l H)).
Qed.
Print Assumptions line_modify_alignment_point_exact.

(** C54 *)
Theorem line_add_cable_contract :
  forall lm P (l l' : Line (B64 lm) P) lc k, constructible (N := B64 lm) num64 l ->
    AddLineCable l lc = (l', Ok k) ->
    (k = (-1)%Z /\ l' = l /\
     ~ ((2 <= length (lc_connections lc))%nat /\ Forall (connectable l) (lc_connections lc))) \/
    (is_insertion (tl_line_cables l) k lc (tl_line_cables l') /\
     tl_alignment l' = tl_alignment l /\ tl_line_structures l' = tl_line_structures l /\
     (2 <= length (lc_connections lc))%nat /\ Forall (connectable l) (lc_connections lc)).
Proof.
  exact (fun lm P l l' lc k H => @AddLineCable_contract (B64 lm) num64 P l lc l' k
    (@constructible_Inv (B64 lm) num64 (B64_ord lm) P l H)).
Qed.
Print Assumptions line_add_cable_contract.

(** C55 *)
Theorem line_add_structure_contract :
  forall lm P (l l' : Line (B64 lm) P) (s : LineStructure (B64 lm)) k, constructible (N := B64 lm) num64 l -> num64 (ls_station s) ->
    AddLineStructure l s = (l', Ok k) ->
    tl_alignment l' = tl_alignment l /\ tl_line_cables l' = tl_line_cables l /\
    ((k = (-1)%Z /\ tl_line_structures l' = tl_line_structures l /\
      (~ on_alignment (tl_alignment l) (ls_station s) \/
       exists s0, In s0 (structures_of l) /\ feqb (ls_station s) (ls_station s0) = true)) \/
     (exists id, is_insertion (tl_line_structures l) k (id, s) (tl_line_structures l') /\
       (forall i, ~ address_at l i id) /\
       on_alignment (tl_alignment l) (ls_station s) /\
       forall s0, In s0 (structures_of l) -> feqb (ls_station s) (ls_station s0) = false)).
Proof.
  exact (fun lm P l l' s k H => @AddLineStructure_contract (B64 lm) num64 (B64_ord lm) P l s l' k
    (@constructible_Inv (B64 lm) num64 (B64_ord lm) P l H)).
Qed.
Print Assumptions line_add_structure_contract.

(** C56 *)
Theorem line_delete_structure_exact :
  forall lm P (l l' : Line (B64 lm) P) i r, constructible (N := B64 lm) num64 l ->
    DeleteLineStructure l i = (l', r) ->
    (r = Ok false /\ ~ (0 <= i < Z.of_nat (length (tl_line_structures l)))%Z /\ content_unchanged l l') \/
    (r = Ok true /\ tl_alignment l' = tl_alignment l /\
     (exists n, is_removal (tl_line_structures l) i n (tl_line_structures l')) /\
     tl_line_cables l' = restrict_cables (in_line l') (tl_line_cables l)).
Proof.
  exact (fun lm P l l' i r H => @DeleteLineStructure_exact (B64 lm) num64 P l i l' r
    (@constructible_Inv (B64 lm) num64 (B64_ord lm) P l H)).
Qed.
Print Assumptions line_delete_structure_exact.

(** C57 *)
Theorem line_modify_structure_exact :
  forall lm P (l l' : Line (B64 lm) P) i (s : LineStructure (B64 lm)), constructible (N := B64 lm) num64 l ->
    ModifyLineStructure l i s = (l', Ok true) ->
    tl_alignment l' = tl_alignment l /\
    exists id s0 st pre post, ls_structure s = Some st /\
      i = Z.of_nat (length pre) /\
      tl_line_structures l = pre ++ (id, s0) :: post /\
      tl_line_structures l' = pre ++ (id, s) :: post /\
      tl_line_cables l' = restrict_cables (fun c => match cn_line_structure c with
          | SOwned id' => negb (Nat.eqb id' id) ||
                          (cn_index_attachment c <? Z.of_nat (length (st_attachments st)))%Z
          | _ => true end) (tl_line_cables l).
Proof.
  exact (fun lm P l l' i s H => @ModifyLineStructure_exact (B64 lm) num64 P l i s l'
    (@constructible_Inv (B64 lm) num64 (B64_ord lm) P l H)).
Qed.
Print Assumptions line_modify_structure_exact.

(** ** Cases that meet the hypotheses *)
Section Example_line_more.
Variable lm : Libm.
Let l := s_line lm.

Lemma case_constructible : constructible (N := B64 lm) num64 l.
Proof. exact (reachable_constructible _ l (s_line_reachable lm)). Qed.

(** C18: deleting the last alignment point removes the structure at 90 and its
    connection; modifying the first one to 40 removes the structure at 10, and
    the second cable, which is left with one connection. *)
Example line_case_alignment_edits :
  snd (DeleteAlignmentPoint l 2) = Ok true /\
  obs_stations lm (fst (DeleteAlignmentPoint l 2)) [10; 50]%Z = true /\
  obs_cables lm (fst (DeleteAlignmentPoint l 2)) = [[(1, 0); (2, 0)]; [(1, 1); (2, 1)]]%Z /\
  snd (DeleteAlignmentPoint l 1) = Ok true /\
  obs_stations lm (fst (DeleteAlignmentPoint l 1)) [10; 50; 90]%Z = true /\
  snd (ModifyAlignmentPoint l 0 (s_pt lm 0 40)) = Ok 0%Z /\
  obs_stations lm (fst (ModifyAlignmentPoint l 0 (s_pt lm 0 40))) [50; 90]%Z = true /\
  obs_cables lm (fst (ModifyAlignmentPoint l 0 (s_pt lm 0 40))) = [[(2, 0); (0, 0)]]%Z.
Proof. repeat split; vm_compute; reflexivity. Qed.

(** C54-C57 *)
Example line_case_edits :
  snd (AddLineCable (fst (DeleteLineCable l 1)) (mkLC [s_conn lm 1 1; s_conn lm 0 1] 9%nat)) = Ok 1%Z /\
  snd (AddLineCable l (mkLC [s_conn lm 1 1; s_conn lm 0 1] 9%nat)) = Ok (-1)%Z /\
  snd (AddLineStructure l (s_ls lm 70 2)) = Ok 2%Z /\
  snd (AddLineStructure l (s_ls lm 50 2)) = Ok (-1)%Z /\
  snd (DeleteLineStructure l 1) = Ok true /\
  obs_cables lm (fst (DeleteLineStructure l 1)) = [[(1, 0); (0, 0)]]%Z /\
  snd (ModifyLineStructure l 1 (s_ls lm 70 1)) = Ok true /\
  obs_stations lm (fst (ModifyLineStructure l 1 (s_ls lm 70 1))) [10; 70; 90]%Z = true /\
  obs_cables lm (fst (ModifyLineStructure l 1 (s_ls lm 70 1))) = [[(1, 0); (2, 0); (0, 0)]]%Z.
Proof. repeat split; vm_compute; reflexivity. Qed.

(** C06 and C13: a history with a ModifyLineStructure on the alignment, and one
    that edits, asks and then changes cables. *)
Definition case_history : list (LineCall (B64 lm) nat) :=
  s_build lm ++ CModifyLineStructure 1 (s_ls lm 70 2) :: [CPointsXyzLineStructures; CDeleteLineCable 0].

Example line_case_history :
  Forall (call_args_ok (N := B64 lm) num64) case_history /\
  modifies_on_alignment Line_empty case_history /\
  match line_run case_history with Some _ => true | None => false end = true.
Proof.
  split; [|split].
  - apply Forall_app. split; [apply s_build_ok|]. repeat constructor.
  - apply (modifies_b_spec lm). vm_compute. reflexivity.
  - vm_compute. reflexivity.
Qed.

(** The three parts of that history in the sense of C13. *)
Example line_case_C13 : exists hist e mods tail,
  case_history = hist ++ e :: mods ++ tail /\ is_alignment_edit e = true /\
  Forall (fun c => is_query c = false) mods /\ Forall (fun c => is_query c || is_cable_call c = true) tail.
Proof.
  exists (firstn 2 (s_build lm)), (CAddAlignmentPoint (s_pt lm 5 60)),
    (skipn 3 (s_build lm) ++ [CModifyLineStructure 1 (s_ls lm 70 2)]),
    [CPointsXyzLineStructures; CDeleteLineCable 0].
  repeat split; repeat constructor.
Qed.

(** C14, C15: the sample line is copied; it has three alignment points, and it was
    built without queries. *)
Example line_case_copy :
  length (tl_alignment l) = 3%nat /\ fresh_line l /\
  match copy l with Ok _ => true | _ => false end = true.
Proof.
  split; [vm_compute; reflexivity|split; [|vm_compute; reflexivity]].
  exists (s_build lm). split; [|apply s_line_runs].
  intros c H. simpl in H. repeat (destruct H as [<-|H]; [reflexivity|]). contradiction.
Qed.

(** C16: each restricted call is safe on the sample line for suitable arguments. *)
Example line_case_safe :
  call_safe l (CAddLineStructure (s_ls lm 70 2)) /\ call_safe l (CDeleteAlignmentPoint 0) /\
  call_safe l (CHasConnection 2 5) /\
  call_safe l (CAddLineCable [mkConn 3 SNull; mkConn 1 (SExt (s_ls lm 70 2))] 3%nat) /\
  call_safe l (CPointXyzAlignment (fofZ 70)).
Proof.
  assert (G : forall m : Line (B64 lm) nat, length (tl_alignment m) = 3%nat ->
    length (tl_line_structures m) = 3%nat ->
    call_safe m (CAddLineStructure (s_ls lm 70 2)) /\ call_safe m (CDeleteAlignmentPoint 0) /\
    call_safe m (CHasConnection 2 5) /\
    call_safe m (CAddLineCable [mkConn 3 SNull; mkConn 1 (SExt (s_ls lm 70 2))] 3%nat) /\
    call_safe m (CPointXyzAlignment (fofZ 70))).
  { intros m A B. assert (C : tl_alignment m <> []) by (destruct (tl_alignment m); discriminate).
    unfold call_safe. rewrite A, B. split; [exact C|]. split; [intros [_ K]; discriminate|].
    split; [lia|]. split; [|exact C].
    apply Forall_cons; [exact I|]. apply Forall_cons; [|constructor].
    unfold connection_safe. simpl. intros [_ K]. discriminate. }
  apply G; vm_compute; reflexivity.
Qed.
End Example_line_more.

(** C10: the hypotheses hold when a second cable is added on a higher attachment
    (here computed on the sample line). *)
Example line_case_order : forall lm,
  obs_cables lm (fst (AddLineCable (fst (DeleteLineCable (s_line lm) 1))
    (mkLC [s_conn lm 1 1; s_conn lm 2 1] 9%nat))) = [[(1, 0); (2, 0); (0, 0)]; [(1, 1); (2, 1)]]%Z.
Proof. intros. vm_compute. reflexivity. Qed.
