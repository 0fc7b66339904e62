(** A concrete line used by the examples: alignment 0, 60, 100 (the middle point
    elevated by 5), structures at 10, 50 and 90 with two attachments each, all
    with hardware, and two cables. *)
From Coq Require Import ZArith Bool List.
From Flocq Require Import IEEE754.BinarySingleNaN.
From Verif Require Import Num NumFacts ModelBase ModelAlignment ModelLine SpecTransmission.
Import ListNotations.

Section Sample.
Variable lm : Libm.
Local Notation Nm := (B64 lm).

Definition s_pt (elevation station : Z) : AlignmentPoint Nm :=
  mkAP (fofZ elevation) (fofZ 0) (fofZ station).
Definition s_hw : Hardware Nm := mkHardware (fofZ 1) (fofZ 2) Suspension (fofZ 50).
Definition s_att : StructureAttachment Nm := mkAttachment (fofZ 0) (fofZ 10) (fofZ 20).
Definition s_st (n : nat) : Structure Nm := mkStructure (repeat s_att n) (fofZ 100).
Definition s_ls (station : Z) (n : nat) : LineStructure Nm :=
  mkLS (repeat (Some s_hw) n) (fofZ 0) (fofZ 0) (fofZ 0) (fofZ station) (Some (s_st n)).
Definition s_conn (id : nat) (att : Z) : Connection Nm := mkConn att (SOwned id).

(** What the examples look at (no floating-point data, so that it can be
    computed and compared): stations are compared with integers. *)
Definition obs_stations (l : Line Nm nat) (zs : list Z) : bool :=
  (Nat.eqb (length zs) (length (tl_line_structures l)) &&
   forallb (fun x => feqb (ls_station (snd (fst x))) (fofZ (N := Nm) (snd x)))
     (combine (tl_line_structures l) zs))%bool.
Definition obs_alignment (l : Line Nm nat) (zs : list Z) : bool :=
  (Nat.eqb (length zs) (length (tl_alignment l)) &&
   forallb (fun x => feqb (ap_station (fst x)) (fofZ (N := Nm) (snd x)))
     (combine (tl_alignment l) zs))%bool.
Definition obs_ids (l : Line Nm nat) : list nat := map fst (tl_line_structures l).
Definition obs_cables (l : Line Nm nat) : list (list (Z * Z)) :=
  map (fun lc => map (fun c =>
     (match cn_line_structure c with SOwned id => Z.of_nat id | _ => (-1)%Z end,
      cn_index_attachment c)) (lc_connections lc)) (tl_line_cables l).

Definition s_build : list (LineCall Nm nat) :=
  [CAddAlignmentPoint (s_pt 0 100); CAddAlignmentPoint (s_pt 0 0); CAddAlignmentPoint (s_pt 5 60);
   CAddLineStructure (s_ls 90 2); CAddLineStructure (s_ls 10 2); CAddLineStructure (s_ls 50 2);
   CAddLineCable [s_conn 1 0; s_conn 2 0; s_conn 0 0] 7%nat;
   CAddLineCable [s_conn 2 1; s_conn 1 1] 8%nat].

Definition s_line : Line Nm nat :=
  match line_run s_build with Some l => l | None => Line_empty end.

Lemma run_some : forall calls : list (LineCall Nm nat),
  match line_run calls with Some _ => true | None => false end = true ->
  line_run calls = Some (match line_run calls with Some l => l | None => Line_empty end).
Proof. intros calls. destruct (line_run calls); [reflexivity|discriminate]. Qed.

Lemma s_line_runs : line_run s_build = Some s_line.
Proof. apply run_some. vm_compute. reflexivity. Qed.

Lemma s_build_ok : Forall (call_args_ok (N := Nm) num64) s_build.
Proof. repeat constructor. Qed.

Lemma s_line_reachable : reachable (N := Nm) num64 s_line.
Proof. exists s_build. exact (conj s_build_ok s_line_runs). Qed.

(** A checker for the hypothesis of C06. *)
Definition on_b (a : list (AlignmentPoint Nm)) (st : Nm) : bool :=
  match nth_error a 0, nth_error a (length a - 1) with
  | Some f, Some b => fleb (ap_station f) st && fleb st (ap_station b)
  | _, _ => false
  end.
Lemma on_b_spec : forall a st, on_alignment a st <-> on_b a st = true.
Proof.
  intros a st. unfold on_b. split.
  - intros (f & b & E1 & E2 & L1 & L2). rewrite E1, E2, L1, L2. reflexivity.
  - destruct (nth_error a 0) as [f|] eqn:E1; [|discriminate].
    destruct (nth_error a (length a - 1)) as [b|] eqn:E2; [|discriminate].
    intro K. apply andb_prop in K. exists f, b. exact (conj E1 (conj E2 K)).
Qed.
Fixpoint modifies_b (l : Line Nm nat) (calls : list (LineCall Nm nat)) : bool :=
  match calls with
  | [] => true
  | c :: rest =>
      match c with
      | CModifyLineStructure _ s => on_b (tl_alignment l) (ls_station s)
      | _ => true
      end && modifies_b (fst (line_step l c)) rest
  end.
Lemma modifies_b_spec : forall calls l, modifies_b l calls = true -> modifies_on_alignment l calls.
Proof.
  induction calls as [|c calls IH]; intros l H; [exact I|].
  cbn [modifies_b] in H. apply andb_prop in H. destruct H as [H1 H2].
  split; [|apply IH; exact H2]. destruct c; auto. apply on_b_spec. exact H1.
Qed.

End Sample.
