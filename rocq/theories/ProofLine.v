(** Invariants of the transmission line over arbitrary histories. *)
From Coq Require Import ZArith Bool List Lia Sorted Permutation.
From Verif Require Import Num ModelBase ModelAlignment ModelLine SpecLine ListFacts ProofAlignment SpecTransmission.
Import ListNotations.
Open Scope num_scope.

(** ** Subsequences *)
Inductive sub {A : Type} : list A -> list A -> Prop :=
| sub_nil : forall l, sub [] l
| sub_skip : forall x l1 l2, sub l1 l2 -> sub l1 (x :: l2)
| sub_cons : forall x l1 l2, sub l1 l2 -> sub (x :: l1) (x :: l2).
#[export] Hint Constructors sub : core.

Lemma sub_refl : forall A (l : list A), sub l l.
Proof. induction l; auto. Qed.

Lemma sub_In : forall A (l1 l2 : list A), sub l1 l2 -> forall x, In x l1 -> In x l2.
Proof. induction 1; simpl; intros y H'; auto; try tauto. destruct H'; auto. Qed.

Lemma sub_NoDup : forall A (l1 l2 : list A), sub l1 l2 -> NoDup l2 -> NoDup l1.
Proof.
  induction 1; intros H'; [constructor| |]; inversion H'; subst; auto.
  constructor; auto. intro K. apply (sub_In _ _ _ H) in K. auto.
Qed.

Lemma sub_trans : forall A (l1 l2 l3 : list A), sub l1 l2 -> sub l2 l3 -> sub l1 l3.
Proof.
  intros A l1 l2 l3 H K. revert l1 H. induction K; intros l0 H; auto.
  - inversion H; auto.
  - inversion H; subst; auto.
Qed.

Lemma sub_filter : forall A (f : A -> bool) l, sub (filter f l) l.
Proof. induction l as [|a l IH]; simpl; auto. destruct (f a); auto. Qed.

Lemma sub_filter2 : forall A (f : A -> bool) l1 l2, sub l1 l2 -> sub (filter f l1) (filter f l2).
Proof. induction 1; simpl; auto; destruct (f x); auto. Qed.

Lemma sub_app_mid : forall A (l l1 l2 : list A) x, sub l (l1 ++ l2) -> sub l (l1 ++ x :: l2).
Proof.
  intros A l l1. revert l. induction l1 as [|a l1 IH]; simpl; intros l l2 x H; auto.
  inversion H; subst; auto.
Qed.

Lemma sub_insert_at : forall A (l l2 : list A) n x, sub l l2 -> sub l (insert_at n x l2).
Proof.
  intros. unfold insert_at. apply sub_app_mid. rewrite firstn_skipn. auto.
Qed.

Lemma sub_remove_at : forall A n (l : list A), sub (remove_at n l) l.
Proof.
  unfold remove_at. induction n as [|n IH]; intros [|a l]; simpl; auto using sub_refl.
  apply sub_cons. apply IH.
Qed.

Lemma sub_map : forall A B (f : A -> B) l1 l2, sub l1 l2 -> sub (map f l1) (map f l2).
Proof. induction 1; simpl; auto. Qed.

Lemma sub_Forall : forall A (P : A -> Prop) l1 l2, sub l1 l2 -> Forall P l2 -> Forall P l1.
Proof. intros. apply Forall_forall. intros x Hx. rewrite Forall_forall in H0. eauto using sub_In. Qed.

Lemma sub_SS : forall A (R : A -> A -> Prop) l1 l2, sub l1 l2 ->
  StronglySorted R l2 -> StronglySorted R l1.
Proof.
  induction 1; intros K; auto; [constructor| |]; inversion K; subst; auto.
  constructor; auto. eapply sub_Forall; eauto.
Qed.

(** Two sorted lists: inclusion implies subsequence. *)
Lemma sorted_incl_sub : forall A (R : A -> A -> Prop) l2 l1,
  (forall x, In x l2 -> ~ R x x) ->
  (forall x y, In x l2 -> In y l2 -> R x y -> R y x -> False) ->
  StronglySorted R l1 -> StronglySorted R l2 -> incl l1 l2 -> sub l1 l2.
Proof.
  induction l2 as [|b l2 IH]; intros l1 Hirr Has S1 S2 HI.
  - destruct l1 as [|a l1]; auto. exfalso. apply (HI a). simpl; auto.
  - destruct l1 as [|a l1]; auto. inversion S1; subst. inversion S2; subst.
    rewrite Forall_forall in H2, H4.
    destruct (HI a) as [->|Ha]; [simpl; auto| |].
    + apply sub_cons. apply IH; auto.
      * intros x Hx. apply Hirr; simpl; auto.
      * intros x y Hx Hy. apply Has; simpl; auto.
      * intros x Hx. destruct (HI x) as [->|K]; [simpl; auto| |auto].
        exfalso. apply (Hirr x); simpl; auto.
    + apply sub_skip. apply IH; auto.
      * intros x Hx. apply Hirr; simpl; auto.
      * intros x y Hx Hy. apply Has; simpl; auto.
      * intros x [->|Hx]; auto. destruct (HI x) as [->|K]; [simpl; auto| |auto].
        exfalso. assert (In x (x :: l2)) by (simpl; auto).
        apply (Has x a); simpl; auto.
Qed.

Section P.
Context {N : Num} (ok : N -> Prop) (OL : OrdLaws N ok) {P : Type}.
Implicit Types l : Line N P.
Implicit Types env structs : Env N.
Implicit Types cs : list (Connection N).
Implicit Types cables : list (LineCable N P).

Definition ids (structs : Env N) : list nat := map fst structs.
Definition stations (structs : Env N) : list N := map (fun n => ls_station (snd n)) structs.

Definition wf_structure (s : LineStructure N) : Prop := slots_match s.

(** The connections refer to structures of the list, in its order. *)
Definition conns_in (structs : Env N) (cs : list (Connection N)) : Prop :=
  exists is, map cn_line_structure cs = map SOwned is /\ sub is (ids structs).

(** The attachment of a connection carries hardware. *)
Definition hw_ok (structs : Env N) (c : Connection N) : Prop :=
  exists id s h, cn_line_structure c = SOwned id /\ lookup structs id = Some s /\
    vec_at (ls_hardwares s) (cn_index_attachment c) = Ok (Some h).

Definition structs_ok (structs : Env N) (next : nat) : Prop :=
  Forall ok (stations structs) /\ StronglySorted lt (stations structs) /\
  NoDup (ids structs) /\ Forall (fun i => (i < next)%nat) (ids structs) /\
  Forall (fun n => wf_structure (snd n)) structs.

Definition cables_ok (structs : Env N) (cables : list (LineCable N P)) : Prop :=
  Forall (fun lc => conns_in structs (lc_connections lc) /\
     (2 <= length (lc_connections lc))%nat /\
     Forall (hw_ok structs) (lc_connections lc)) cables /\
  NoDup (flat_map lc_connections cables).

Definition Inv l : Prop :=
  sorted_pts ok (tl_alignment l) /\
  structs_ok (tl_line_structures l) (tl_next l) /\
  cables_ok (tl_line_structures l) (tl_line_cables l).

Definition line_call_ok (c : LineCall N P) : Prop := call_args_ok ok c.

(** ** lookup *)
Lemma lookup_In : forall env id s, lookup env id = Some s -> In (id, s) env.
Proof.
  induction env as [|[i s'] env IH]; simpl; intros id s H; [discriminate|].
  destruct (Nat.eqb_spec i id); [inversion H; subst; auto|auto].
Qed.

Lemma In_lookup : forall env id s, NoDup (ids env) -> In (id, s) env -> lookup env id = Some s.
Proof.
  induction env as [|[i s'] env IH]; simpl; intros id s ND H; [contradiction|].
  inversion ND; subst. destruct H as [H|H].
  - inversion H; subst. rewrite Nat.eqb_refl. auto.
  - destruct (Nat.eqb_spec i id) as [->|]; auto.
    exfalso. apply H2. apply (in_map fst) in H. exact H.
Qed.

Lemma lookup_ids : forall env id, In id (ids env) <-> exists s, lookup env id = Some s.
Proof.
  intros env id. split.
  - induction env as [|[i s] env IH]; simpl; [contradiction|].
    intros H. destruct (Nat.eqb_spec i id) as [->|]; eauto. destruct H; [contradiction|auto].
  - intros [s H]. apply lookup_In in H. apply (in_map fst) in H. exact H.
Qed.

Lemma NoDup_insert_at : forall A n (x : A) m, NoDup m -> ~ In x m -> NoDup (insert_at n x m).
Proof.
  intros. unfold insert_at. apply NoDup_Add with (a := x) (l := m).
  - rewrite <- (firstn_skipn n m) at 1. apply Add_app.
  - auto.
Qed.

(** Lookup in a list of which the other list keeps the entry. *)
Lemma lookup_sub : forall env env' id s, NoDup (ids env') -> sub env env' ->
  lookup env id = Some s -> lookup env' id = Some s.
Proof.
  intros. apply In_lookup; auto. eapply sub_In; eauto. apply lookup_In; auto.
Qed.

Lemma lookup_sub_rev : forall env env' id s, NoDup (ids env') -> sub env env' ->
  In id (ids env) -> lookup env' id = Some s -> lookup env id = Some s.
Proof.
  intros env env' id s ND HS HI HL. apply lookup_ids in HI as [s' Hs'].
  rewrite Hs'. rewrite <- HL. symmetry. eapply lookup_sub; eauto.
Qed.

Lemma insert_at_sub : forall A n (x : A) m, sub m (insert_at n x m).
Proof. intros. apply sub_insert_at, sub_refl. Qed.

(** ** ValidateConnections *)
Lemma validate_loop_hw : forall env cs, ValidateConnections_loop env cs = Ok tt ->
  Forall (fun c => exists s h, deref env (cn_line_structure c) = Ok s /\
     vec_at (ls_hardwares s) (cn_index_attachment c) = Ok (Some h)) cs.
Proof.
  induction cs as [|c cs IH]; simpl; intros H; constructor;
  (destruct (deref env (cn_line_structure c)) as [s| |] eqn:E1; simpl in H; try discriminate;
   destruct (vec_at (ls_hardwares s) _) as [[h|]| |] eqn:E2; simpl in H; try discriminate); eauto.
Qed.

Lemma validate_true : forall env cs, ValidateConnections env cs = Ok true ->
  (2 <= length cs)%nat /\ ValidateConnections_loop env cs = Ok tt.
Proof.
  intros env cs. unfold ValidateConnections.
  destruct (Nat.ltb_spec (length cs) 2); [discriminate|]. intros K. split; [lia|].
  destruct (ValidateConnections_loop env cs) as [[]| |]; simpl in K; auto; discriminate.
Qed.

Lemma validate_false : forall env cs, ValidateConnections env cs = Ok false ->
  (length cs < 2)%nat.
Proof.
  intros env cs. unfold ValidateConnections.
  destruct (Nat.ltb_spec (length cs) 2); auto.
  destruct (ValidateConnections_loop env cs) as [[]| |]; discriminate.
Qed.

Lemma validate_hw_ok : forall env cs, Forall (hw_ok env) cs -> ValidateConnections_loop env cs = Ok tt.
Proof.
  induction 1 as [|c cs (id & s & h & E1 & E2 & E3) H IH]; simpl; auto.
  rewrite E1. simpl. rewrite E2. simpl. rewrite E3. simpl. auto.
Qed.

(** ** DeleteInvalidLineCables *)
Definition long_enough (lc : LineCable N P) : bool := Nat.leb 2 (length (lc_connections lc)).

Lemma delete_invalid_ok : forall env cables cables',
  DeleteInvalidLineCables env cables = (cables', Ok tt) ->
  cables' = filter long_enough cables /\
  Forall (fun lc => ValidateConnections env (lc_connections lc) = Ok true) cables'.
Proof.
  induction cables as [|lc cables IH]; simpl; intros cables' H.
  - inversion H; subst. split; auto; constructor.
  - destruct (ValidateConnections env (lc_connections lc)) as [[]| |] eqn:E; try discriminate.
    + destruct (DeleteInvalidLineCables env cables) as [rest r] eqn:ED. inversion H; subst.
      destruct (IH rest eq_refl) as [-> F].
      assert (L : long_enough lc = true) by (apply validate_true in E as [L _]; apply Nat.leb_le; auto).
      rewrite L. split; auto.
    + assert (L : long_enough lc = false) by (apply validate_false in E; apply Nat.leb_gt; auto).
      rewrite L. auto.
Qed.

(** All connections hw_ok except for a short list: never throws. *)
Lemma delete_invalid_hw_ok : forall env cables,
  Forall (fun lc => Forall (hw_ok env) (lc_connections lc)) cables ->
  DeleteInvalidLineCables env cables = (filter long_enough cables, Ok tt).
Proof.
  induction 1 as [|lc cables Hlc H IH]; simpl; auto.
  unfold ValidateConnections.
  destruct (Nat.ltb_spec (length (lc_connections lc)) 2) as [L|L].
  - assert (E : long_enough lc = false) by (apply Nat.leb_gt; auto). rewrite E. auto.
  - assert (E : long_enough lc = true) by (apply Nat.leb_le; auto). rewrite E.
    rewrite (validate_hw_ok _ _ Hlc). simpl. rewrite IH. auto.
Qed.

(** ** NoDup of the flattened connections under filtering *)
Lemma flat_map_sub : forall A B (f g : A -> list B) m,
  (forall a, In a m -> sub (g a) (f a)) -> sub (flat_map g m) (flat_map f m).
Proof.
  induction m as [|a m IH]; simpl; intros H; auto.
  assert (K : forall (x y x' y' : list B), sub x x' -> sub y y' -> sub (x ++ y) (x' ++ y')).
  { clear. induction 1; simpl; intros; auto. induction l; simpl; auto. }
  apply K; auto.
Qed.

Lemma flat_map_filter_sub : forall A B (f : A -> list B) (p : A -> bool) m,
  sub (flat_map f (filter p m)) (flat_map f m).
Proof.
  assert (K : forall B (x y : list B), sub y (x ++ y)) by
    (clear; induction x; simpl; auto using sub_refl).
  assert (K2 : forall B (x y z : list B), sub y z -> sub (x ++ y) (x ++ z)) by
    (clear; induction x; simpl; auto).
  induction m as [|a m IH]; simpl; auto.
  destruct (p a); simpl; auto.
  eapply sub_trans; [exact IH|apply K].
Qed.

(** ** conns_in *)
Lemma conns_in_filter : forall structs cs f, conns_in structs cs -> conns_in structs (filter f cs).
Proof.
  intros structs cs f (is & E & S).
  assert (H : exists is', map cn_line_structure (filter f cs) = map SOwned is' /\ sub is' is).
  { clear S. revert is E. induction cs as [|c cs IH]; simpl; intros [|i is] E; try discriminate.
    - exists []; auto.
    - simpl in E. injection E as E1 E2. destruct (IH is E2) as (is' & E' & S').
      destruct (f c); simpl; [exists (i :: is'); simpl; split; [congruence|auto]|exists is'; auto]. }
  destruct H as (is' & E' & S'). exists is'. split; auto. eapply sub_trans; eauto.
Qed.

Lemma conns_in_owned : forall structs cs c, conns_in structs cs -> In c cs ->
  exists id, cn_line_structure c = SOwned id /\ In id (ids structs).
Proof.
  intros structs cs c (is & E & S) Hc. apply (in_map cn_line_structure) in Hc.
  rewrite E in Hc. apply in_map_iff in Hc as (i & Ei & Hi). exists i. split; auto.
  eapply sub_In; eauto.
Qed.

(** A larger list of structures. *)
Lemma conns_in_sub : forall s1 s2 cs, sub (ids s1) (ids s2) -> conns_in s1 cs -> conns_in s2 cs.
Proof. intros s1 s2 cs H (is & E & S). exists is. split; auto. eapply sub_trans; eauto. Qed.

Lemma hw_ok_sub : forall s1 s2 c, NoDup (ids s2) -> sub s1 s2 -> hw_ok s1 c -> hw_ok s2 c.
Proof.
  intros s1 s2 c ND S (id & s & h & E1 & E2 & E3). exists id, s, h. repeat split; auto.
  eapply lookup_sub; eauto.
Qed.

(** Removing structures the connections do not use. *)
Lemma conns_in_remove : forall s1 s2 cs, NoDup (ids s2) -> sub s1 s2 ->
  (forall c id, In c cs -> cn_line_structure c = SOwned id -> In id (ids s1)) ->
  conns_in s2 cs -> conns_in s1 cs.
Proof.
  intros s1 s2 cs ND S HI (is & E & Sub). exists is. split; auto.
  assert (Hin : forall i, In i is -> In i (ids s1)).
  { intros i Hi. assert (K : In (@SOwned N i) (map SOwned is)) by (apply in_map; auto).
    rewrite <- E in K. apply in_map_iff in K as (c & Ec & Hc). eapply HI; eauto. }
  (* restrict both to ids of s1 *)
  assert (F : is = filter (fun i => existsb (Nat.eqb i) (ids s1)) is).
  { clear -Hin. induction is as [|i is IH]; simpl; auto.
    assert (existsb (Nat.eqb i) (ids s1) = true) as ->.
    { apply existsb_exists. exists i. split; [apply Hin; simpl; auto|apply Nat.eqb_refl]. }
    f_equal. apply IH. intros; apply Hin; simpl; auto. }
  rewrite F.
  assert (G : forall (a b : list nat), sub a b -> NoDup b ->
     filter (fun i => existsb (Nat.eqb i) a) b = a).
  { clear. induction 1; intros ND; simpl.
    - induction l; simpl; auto. inversion ND; auto.
    - inversion ND; subst.
      assert (existsb (Nat.eqb x) l1 = false) as ->; [|auto].
      apply not_true_is_false. intros K. apply existsb_exists in K as (y & Hy & Ey).
      apply Nat.eqb_eq in Ey. subst. apply H2. eapply sub_In; eauto.
    - inversion ND; subst. rewrite Nat.eqb_refl. simpl. f_equal.
      transitivity (filter (fun i => existsb (Nat.eqb i) l1) l2); [|auto].
      apply filter_ext_in. intros a Ha.
      destruct (Nat.eqb_spec a x) as [->|]; [contradiction|]. auto. }
  specialize (G _ _ (sub_map _ _ fst _ _ S) ND).
  change (sub (filter (fun i => existsb (Nat.eqb i) (ids s1)) is) (map fst s1)).
  rewrite <- G. apply sub_filter2. auto.
Qed.

Lemma hw_ok_remove : forall s1 s2 c, NoDup (ids s2) -> sub s1 s2 ->
  (forall id, cn_line_structure c = SOwned id -> In id (ids s1)) -> hw_ok s2 c -> hw_ok s1 c.
Proof.
  intros s1 s2 c ND S HI (id & s & h & E1 & E2 & E3). exists id, s, h. repeat split; auto.
  eapply lookup_sub_rev; eauto.
Qed.

(** ** The deletion of connections *)
Definition strip (p : Connection N -> bool) (cables : list (LineCable N P)) :=
  map (fun lc => mkLC (filter p (lc_connections lc)) (lc_payload lc)) cables.

Lemma strip_strip : forall p q cables,
  strip p (strip q cables) = strip (fun c => q c && p c) cables.
Proof.
  intros. unfold strip. rewrite map_map. apply map_ext. intros lc. simpl. f_equal.
  induction (lc_connections lc) as [|c cs IH]; simpl; auto.
  destruct (q c); simpl; [|auto]. destruct (p c); simpl; [f_equal|]; auto.
Qed.

Lemma flat_map_strip : forall p cables, sub (flat_map lc_connections (strip p cables))
  (flat_map lc_connections cables).
Proof.
  intros. unfold strip. rewrite flat_map_concat_map, map_map, <- flat_map_concat_map.
  apply flat_map_sub. intros. simpl. apply sub_filter.
Qed.

(** Connections and structures agree, without the lower bound on the number. *)
Definition cables_refs (structs : Env N) (cables : list (LineCable N P)) : Prop :=
  Forall (fun lc => conns_in structs (lc_connections lc) /\
     Forall (hw_ok structs) (lc_connections lc)) cables /\
  NoDup (flat_map lc_connections cables).

Lemma cables_ok_refs : forall s c, cables_ok s c -> cables_refs s c.
Proof.
  intros s c [H1 H2]. split; auto. eapply Forall_impl; [|exact H1]. simpl; tauto.
Qed.

Lemma cables_refs_long : forall s c, cables_refs s c -> cables_ok s (filter long_enough c).
Proof.
  intros s c [H1 H2]. split.
  - apply Forall_forall. intros lc Hlc. apply filter_In in Hlc as [Hlc L].
    rewrite Forall_forall in H1. destruct (H1 lc Hlc). apply Nat.leb_le in L. auto.
  - eapply sub_NoDup; [apply flat_map_filter_sub|auto].
Qed.

Lemma cables_refs_strip : forall s c p, cables_refs s c -> cables_refs s (strip p c).
Proof.
  intros s c p [H1 H2]. split.
  - unfold strip. apply Forall_forall. intros lc Hlc. apply in_map_iff in Hlc as (lc0 & <- & Hlc).
    rewrite Forall_forall in H1. destruct (H1 lc0 Hlc) as [K1 K2]. simpl. split.
    + apply conns_in_filter; auto.
    + eapply sub_Forall; [apply sub_filter|auto].
  - eapply sub_NoDup; [apply flat_map_strip|auto].
Qed.

(** Stripped of the structures to be removed, the cables fit the smaller list. *)
Lemma cables_refs_remove : forall s1 s2 c, NoDup (ids s2) -> sub s1 s2 ->
  (forall lc cn id, In lc c -> In cn (lc_connections lc) -> cn_line_structure cn = SOwned id ->
     In id (ids s1)) ->
  cables_refs s2 c -> cables_refs s1 c.
Proof.
  intros s1 s2 c ND S HI [H1 H2]. split; auto.
  apply Forall_forall. intros lc Hlc. rewrite Forall_forall in H1. destruct (H1 lc Hlc) as [K1 K2].
  split.
  - eapply conns_in_remove; eauto.
  - apply Forall_forall. intros cn Hcn. rewrite Forall_forall in K2.
    eapply hw_ok_remove; eauto.
Qed.

Lemma structs_ok_sub : forall s1 s2 n, sub s1 s2 -> structs_ok s2 n -> structs_ok s1 n.
Proof.
  intros s1 s2 n S (A & B & C & D & E).
  assert (S1 := sub_map _ _ fst _ _ S). assert (S2 := sub_map _ _ (fun n => ls_station (snd n)) _ _ S).
  repeat split.
  - eapply sub_Forall; eauto.
  - eapply sub_SS; eauto.
  - eapply sub_NoDup; eauto.
  - eapply sub_Forall; eauto.
  - eapply sub_Forall; eauto.
Qed.

(** ** DeleteInvalidLineStructures *)
Definition outside (smin smax : N) (s : LineStructure N) : bool :=
  (ls_station s <? smin) || (smax <? ls_station s).

Lemma delete_structs_loop : forall smin smax structs cables,
  DeleteInvalidLineStructures_loop smin smax structs cables =
  (filter (fun n => negb (outside smin smax (snd n))) structs,
   strip (fun c => negb (existsb (fun n => points_to (fst n) c)
                          (filter (fun n => outside smin smax (snd n)) structs))) cables).
Proof.
  induction structs as [|[id s] structs IH]; intros cables; simpl.
  - f_equal. unfold strip. rewrite <- (map_id cables) at 1. apply map_ext.
    intros lc. destruct lc as [cs p]. simpl. f_equal.
    induction cs; simpl; congruence.
  - fold (outside smin smax s). destruct (outside smin smax s) eqn:E; simpl.
    + rewrite IH. f_equal. unfold DeleteConnectionsFromStructure.
      change (map (fun lc => mkLC (filter (fun c => negb (points_to id c)) (lc_connections lc)) (lc_payload lc)) cables)
        with (strip (fun c => negb (points_to id c)) cables).
      rewrite strip_strip. unfold strip. apply map_ext. intros lc. f_equal.
      apply filter_ext. intros c. symmetry. apply negb_orb.
    + rewrite IH. reflexivity.
Qed.

Lemma points_to_iff : forall id (c : Connection N), points_to id c = true <-> cn_line_structure c = SOwned id.
Proof.
  intros id c. unfold points_to. destruct (cn_line_structure c); split; intros H; try discriminate.
  - apply Nat.eqb_eq in H. subst; auto.
  - inversion H. apply Nat.eqb_refl.
Qed.

Lemma filter_partition : forall A (f : A -> bool) (x : A) m, In x m ->
  In x (filter f m) \/ In x (filter (fun y => negb (f y)) m).
Proof. intros. destruct (f x) eqn:E; [left|right]; apply filter_In; rewrite ?E; auto. Qed.

(** A removal of the structures selected by [f] together with their connections. *)
Lemma refs_drop : forall structs cables n (f : nat * LineStructure N -> bool),
  structs_ok structs n -> cables_refs structs cables ->
  cables_refs (filter (fun x => negb (f x)) structs)
    (strip (fun c => negb (existsb (fun x => points_to (fst x) c) (filter f structs))) cables).
Proof.
  intros structs cables n f (_ & _ & ND & _) HR.
  apply cables_refs_remove with (s2 := structs); auto using sub_filter.
  - intros lc cn id Hlc Hcn Eid. unfold strip in Hlc.
    apply in_map_iff in Hlc as (lc0 & <- & Hlc0). simpl in Hcn.
    apply filter_In in Hcn as [Hcn Hneg].
    destruct HR as [HR _]. rewrite Forall_forall in HR. destruct (HR lc0 Hlc0) as [K _].
    destruct (conns_in_owned _ _ _ K Hcn) as (id' & E' & Hid). rewrite Eid in E'. inversion E'; subst id'.
    unfold ids in Hid. apply in_map_iff in Hid as (x & <- & Hx).
    apply (filter_partition _ f) in Hx as [Hx|Hx].
    + exfalso. apply negb_true_iff in Hneg. rewrite <- not_true_iff_false in Hneg. apply Hneg.
      apply existsb_exists. exists x. split; auto. apply points_to_iff; auto.
    + apply in_map; auto.
  - apply cables_refs_strip; auto.
Qed.

Lemma refs_forall_hw : forall s c, cables_refs s c ->
  Forall (fun lc => Forall (hw_ok s) (lc_connections lc)) c.
Proof. intros s c [H _]. eapply Forall_impl; [|exact H]. simpl; tauto. Qed.

(** ** cleanup *)
Lemma cleanup_Inv : forall A l (v : A) l' r, Inv l -> cleanup l v = (l', r) -> r <> UB ->
  r = Ok v /\ Inv l'.
Proof.
  intros A l v l' r (I1 & I2 & I3) H Hr. unfold cleanup, DeleteInvalidLineStructures in H.
  destruct (front (tl_alignment l)) as [pf| |]; try (inversion H; subst; congruence).
  destruct (back (tl_alignment l)) as [pb| |]; try (inversion H; subst; congruence).
  rewrite delete_structs_loop in H.
  unfold line_DeleteInvalidLineCables in H. simpl in H.
  set (f := fun n : nat * LineStructure N => outside (ap_station pf) (ap_station pb) (snd n)) in *.
  assert (R := refs_drop _ _ _ f I2 (cables_ok_refs _ _ I3)).
  fold f in H.
  change (fun n : nat * LineStructure N => negb (outside (ap_station pf) (ap_station pb) (snd n)))
    with (fun x => negb (f x)) in H.
  rewrite delete_invalid_hw_ok in H by (apply refs_forall_hw; auto).
  inversion H; subst. split; auto. split; [|split]; simpl; auto.
  - eapply structs_ok_sub; [apply sub_filter|eauto].
  - apply cables_refs_long. auto.
Qed.

(** ** AddLineStructure *)
Lemma AddLineStructure_search_slot : forall s structs k,
  AddLineStructure_search s structs k = find_slot (ls_station s) (stations structs) k.
Proof.
  induction structs as [|[i q] structs IH]; simpl; intros k; auto.
  destruct (ls_station s <? ls_station q); auto.
  destruct (ls_station s =? ls_station q); auto.
Qed.

Lemma structs_ok_insert : forall structs n s pos, structs_ok structs n ->
  ok (ls_station s) -> wf_structure s ->
  find_slot (ls_station s) (stations structs) 0 = Some pos ->
  structs_ok (insert_at pos (n, s) structs) (S n).
Proof.
  intros structs n s pos (A & B & C & D & E) Hs Hw HF. unfold structs_ok, stations, ids in *.
  rewrite !map_insert_at. simpl. repeat split.
  - apply Forall_forall. intros x Hx. apply In_insert_at in Hx as [->|Hx]; auto.
    rewrite Forall_forall in A; auto.
  - eapply insert_sorted; eauto.
  - apply NoDup_insert_at; auto. intros H. rewrite Forall_forall in D. apply D in H. lia.
  - apply Forall_forall. intros x Hx. apply In_insert_at in Hx as [->|Hx]; auto.
    rewrite Forall_forall in D. apply D in Hx. lia.
  - apply Forall_forall. intros x Hx. apply In_insert_at in Hx as [->|Hx]; auto.
    rewrite Forall_forall in E; auto.
Qed.

Lemma cables_ok_insert : forall structs n m s pos cables, structs_ok structs n -> cables_ok structs cables ->
  structs_ok (insert_at pos (n, s) structs) m -> cables_ok (insert_at pos (n, s) structs) cables.
Proof.
  intros structs n m s pos cables I2 [H1 H2] (_ & _ & ND & _). split; auto.
  eapply Forall_impl; [|exact H1]. simpl. intros lc (K1 & K2 & K3). repeat split; auto.
  - eapply conns_in_sub; [|exact K1]. apply sub_map, insert_at_sub.
  - eapply Forall_impl; [|exact K3]. intros c. apply hw_ok_sub; auto using insert_at_sub.
Qed.

(** ** AddLineCable *)
Lemma index_of_id_ge : forall structs id k, (0 <= k)%Z ->
  (index_of_id structs id k = (-1)%Z /\ ~ In id (ids structs)) \/
  (exists s, (k <= index_of_id structs id k)%Z /\
     nth_error structs (Z.to_nat (index_of_id structs id k - k)) = Some (id, s)).
Proof.
  induction structs as [|[i s] structs IH]; simpl; intros id k Hk; [left; split; auto|].
  destruct (Nat.eqb_spec i id) as [->|Hne].
  - right. exists s. split; [lia|]. replace (k - k)%Z with 0%Z by lia. auto.
  - destruct (IH id (k + 1)%Z) as [[E1 E2]|(s' & E1 & E2)]; [lia| |].
    + left. split; auto. intros [H|H]; auto.
    + right. exists s'. split; [lia|].
      replace (Z.to_nat (index_of_id structs id (k + 1) - k)) with
        (S (Z.to_nat (index_of_id structs id (k + 1) - (k + 1)))) by lia. auto.
Qed.

Lemma IndexLineStructure_owned : forall l p, IndexLineStructure l p <> (-1)%Z ->
  exists id s, p = SOwned id /\ (0 <= IndexLineStructure l p)%Z /\
    nth_error (tl_line_structures l) (Z.to_nat (IndexLineStructure l p)) = Some (id, s).
Proof.
  intros l [|id|s]; simpl; intros H; try congruence.
  destruct (index_of_id_ge (tl_line_structures l) id 0) as [[E _]|(s & E1 & E2)]; [lia|congruence|].
  exists id, s. rewrite Z.sub_0_r in E2. auto.
Qed.

Lemma has_connection_iff : forall l i j b, HasConnection l i j = Ok b ->
  exists id s, (0 <= i)%Z /\ nth_error (tl_line_structures l) (Z.to_nat i) = Some (id, s) /\
  (b = true <-> exists lc c, In lc (tl_line_cables l) /\ In c (lc_connections lc) /\
     cn_line_structure c = SOwned id /\ cn_index_attachment c = j).
Proof.
  intros l i j b. unfold HasConnection, next_deref.
  destruct (Z.ltb_spec i 0); [discriminate|].
  destruct (nth_error _ _) as [[id s]|] eqn:E; simpl; [|discriminate].
  intros H'. inversion H'; subst; clear H'. exists id, s. split; [lia|]. split; auto.
  rewrite existsb_exists. split.
  - intros (lc & Hlc & H'). apply existsb_exists in H' as (c & Hc & K).
    apply andb_true_iff in K as [K1 K2]. apply points_to_iff in K1. apply Z.eqb_eq in K2.
    exists lc, c. auto.
  - intros (lc & c & Hlc & Hc & E1 & E2). exists lc. split; auto.
    apply existsb_exists. exists c. split; auto. apply andb_true_iff. split.
    + apply points_to_iff; auto.
    + apply Z.eqb_eq; auto.
Qed.

Lemma check_true : forall l cs, AddLineCable_check l cs = Ok true ->
  forall c, In c cs ->
    (exists id, cn_line_structure c = SOwned id /\ In id (ids (tl_line_structures l))) /\
    ~ In c (flat_map lc_connections (tl_line_cables l)).
Proof.
  induction cs as [|c0 cs IH]; simpl; intros H c Hc; [contradiction|].
  destruct (IndexLineStructure l (cn_line_structure c0) =? -1)%Z eqn:E; [discriminate|].
  destruct (HasConnection l _ _) as [[]| |] eqn:EH; simpl in H; try discriminate.
  destruct Hc as [->|Hc]; [|auto].
  apply Z.eqb_neq in E. apply IndexLineStructure_owned in E as (id & s & E1 & E2 & E3).
  apply has_connection_iff in EH as (id' & s' & _ & E4 & E5). rewrite E3 in E4. inversion E4; subst.
  split.
  - exists id'. split; auto. apply nth_error_In in E3. apply (in_map fst) in E3. exact E3.
  - intros K. apply in_flat_map in K as (lc & Hlc & Hc). destruct E5 as [_ E5].
    assert (false = true); [|discriminate]. apply E5. exists lc, c. auto.
Qed.

Lemma flat_map_insert_perm : forall A B (f : A -> list B) n x m,
  Permutation (flat_map f (insert_at n x m)) (f x ++ flat_map f m).
Proof.
  intros. unfold insert_at. rewrite <- (firstn_skipn n m) at 3.
  rewrite !flat_map_app. simpl. rewrite app_assoc.
  rewrite (app_assoc (f x)). apply Permutation_app_tail, Permutation_app_comm.
Qed.

Lemma NoDup_app_intro : forall A (a b : list A), NoDup a -> NoDup b ->
  (forall x, In x a -> ~ In x b) -> NoDup (a ++ b).
Proof.
  induction a as [|x a IH]; simpl; intros b Ha Hb H; auto. inversion Ha; subst.
  constructor; [|apply IH; auto]. intros K. apply in_app_or in K as [K|K]; auto.
  eapply H; eauto.
Qed.

Lemma conns_in_NoDup : forall structs cs, NoDup (ids structs) -> conns_in structs cs -> NoDup cs.
Proof.
  intros structs cs ND (is & E & S).
  apply (NoDup_map_inv cn_line_structure). rewrite E.
  assert (K : NoDup is) by (eapply sub_NoDup; eauto).
  clear -K. induction K; simpl; constructor; auto.
  intros H'. apply in_map_iff in H' as (y & Ey & Hy). inversion Ey; subst. auto.
Qed.

(** What a successful AddLineCable does. *)
Lemma AddLineCable_cases : forall l lc l' r, AddLineCable l lc = (l', r) ->
  (l' = l /\ (r = Ok (-1)%Z \/ r = Throw \/ r = UB)) \/
  (exists pos, r = Ok (Z.of_nat pos) /\ l' = with_cables l (insert_at pos lc (tl_line_cables l)) /\
     (pos <= length (tl_line_cables l))%nat /\
     ValidateConnections (tl_line_structures l) (lc_connections lc) = Ok true /\
     AddLineCable_check l (lc_connections lc) = Ok true).
Proof.
  intros l lc l' r H. unfold AddLineCable in H.
  destruct (ValidateConnections _ _) as [[]| |] eqn:EV; try (inversion H; subst; left; auto; fail).
  destruct (AddLineCable_check _ _) as [[]| |] eqn:EC; try (inversion H; subst; left; auto; fail).
  destruct (front (lc_connections lc)) as [c| |]; try (inversion H; subst; left; auto; fail).
  match goal with H : context [AddLineCable_search ?a ?b ?c ?d ?e] |- _ =>
    destruct (AddLineCable_search a b c d e) as [pos| |] eqn:ES end;
    try (inversion H; subst; left; auto; fail).
  inversion H; subst. right. exists pos. repeat split; auto.
  assert (K : forall i a cables k p, AddLineCable_search l i a cables k = Ok p -> (p <= k + length cables)%nat).
  { clear. induction cables as [|x cables IH]; simpl; intros k p H; [inversion H; lia|].
    destruct (front (lc_connections x)); simpl in H; try discriminate.
    match type of H with (if ?b then _ else _) = _ => destruct b end; [inversion H; lia|].
    apply IH in H. lia. }
  apply K in ES. auto.
Qed.

Lemma add_cable_Inv : forall l lc l' r, Inv l ->
  (forall c, In c (lc_connections lc) -> exists id, cn_line_structure c = SOwned id /\ In id (ids (tl_line_structures l))) \/ True ->
  AddLineCable l lc = (l', r) ->
  (ValidateConnections (tl_line_structures l) (lc_connections lc) = Ok true ->
   AddLineCable_check l (lc_connections lc) = Ok true -> conns_in (tl_line_structures l) (lc_connections lc)) ->
  Inv l'.
Proof.
  intros l lc l' r (I1 & I2 & I3) _ H HC.
  apply AddLineCable_cases in H as [[-> _]|(pos & -> & -> & Hpos & EV & EC)]; [split; auto|].
  split; [|split]; simpl; auto. specialize (HC EV EC).
  destruct I3 as [J1 J2]. apply validate_true in EV as [L EV].
  assert (KC := check_true _ _ EC).
  split.
  - apply Forall_forall. intros x Hx. apply In_insert_at in Hx as [->|Hx].
    + split; auto. split; auto. apply validate_loop_hw in EV. rewrite Forall_forall in EV.
      apply Forall_forall. intros c Hc. destruct (EV c Hc) as (s & h & D1 & D2).
      destruct (KC c Hc) as [(id & E1 & _) _]. rewrite E1 in D1. simpl in D1.
      destruct (lookup _ id) eqn:EL; inversion D1; subst. exists id, s, h. auto.
    + rewrite Forall_forall in J1; auto.
  - eapply Permutation_NoDup; [apply Permutation_sym, flat_map_insert_perm|].
    apply NoDup_app_intro; auto.
    + eapply conns_in_NoDup; eauto. apply I2.
    + intros c Hc. apply KC; auto.
Qed.

(** ** Cables built by AddConnection *)
Definition id_station (structs : Env N) (id : nat) : option N :=
  option_map ls_station (lookup structs id).

Definition id_lt (structs : Env N) (a b : nat) : Prop :=
  exists x y, id_station structs a = Some x /\ id_station structs b = Some y /\ lt x y.

Lemma AddConnection_incl : forall env acc c acc' i, AddConnection env acc c = Ok (acc', i) ->
  forall x, In x acc -> In x acc'.
Proof.
  intros env acc c acc' i H x Hx. unfold AddConnection in H.
  destruct (cn_line_structure c); [inversion H; subst; auto| |];
  (destruct (AddConnection_search env c acc 0) as [[pos|]| |]; simpl in H; inversion H; subst; auto;
   apply In_insert_at; auto).
Qed.

Lemma build_incl : forall env reqs acc cs, build_cable env acc reqs = Ok cs ->
  forall x, In x acc -> In x cs.
Proof.
  induction reqs as [|c reqs IH]; simpl; intros acc cs H x Hx; [inversion H; subst; auto|].
  destruct (AddConnection env acc c) as [[acc' i]| |] eqn:E; simpl in H; try discriminate.
  eapply IH; eauto. eapply AddConnection_incl; eauto.
Qed.

Definition owned_list (env : Env N) (cs : list (Connection N)) (is : list nat) : Prop :=
  map cn_line_structure cs = map SOwned is /\ Forall (fun i => In i (ids env)) is.

Definition st_list (env : Env N) (is : list nat) (ss : list N) : Prop :=
  Forall2 (fun i s => id_station env i = Some s) is ss.

(** The connection search is the slot search on the stations. *)
Lemma AddConnection_search_slot : forall env c cs is ss st k,
  deref env (cn_line_structure c) = Ok st ->
  owned_list env cs is -> st_list env is ss ->
  AddConnection_search env c cs k = Ok (find_slot (ls_station st) ss k).
Proof.
  intros env c cs. induction cs as [|c0 cs IH]; intros is ss st k HD [HO HF] HS.
  - destruct is; [|discriminate]. inversion HS; subst. auto.
  - destruct is as [|i is]; [discriminate|]. inversion HS; subst. simpl in HO. injection HO as E1 E2.
    inversion HF; subst. simpl. rewrite HD. simpl. rewrite E1. simpl.
    unfold id_station in H1. destruct (lookup env i) as [s0|]; simpl in H1; [|discriminate].
    inversion H1; subst. simpl.
    destruct (ls_station st <? ls_station s0); auto.
    destruct (ls_station st =? ls_station s0); auto.
    eapply IH; eauto. split; auto.
Qed.

Lemma owned_list_insert : forall env cs is c i n, owned_list env cs is ->
  cn_line_structure c = SOwned i -> In i (ids env) ->
  owned_list env (insert_at n c cs) (insert_at n i is).
Proof.
  intros env cs is c i n [H1 H2] E Hi. split.
  - rewrite !map_insert_at, H1, E. auto.
  - apply Forall_forall. intros x Hx. apply In_insert_at in Hx as [->|Hx]; auto.
    rewrite Forall_forall in H2; auto.
Qed.

Lemma st_list_insert : forall env is ss n i s, st_list env is ss ->
  id_station env i = Some s -> st_list env (insert_at n i is) (insert_at n s ss).
Proof.
  unfold st_list. intros env is ss n i s H E. unfold insert_at. revert n.
  induction H; intros [|n]; simpl; try (constructor; auto; fail); constructor; auto.
Qed.

Lemma st_list_ok : forall env n is ss, structs_ok env n -> st_list env is ss -> Forall ok ss.
Proof.
  intros env n is ss (A & _) H. induction H; constructor; auto.
  unfold id_station in H. destruct (lookup env x) as [s|] eqn:E; simpl in H; [|discriminate].
  inversion H; subst. apply lookup_In in E. rewrite Forall_forall in A. apply A.
  apply (in_map (fun n => ls_station (snd n))) in E. exact E.
Qed.

Lemma build_sorted : forall env n, structs_ok env n -> forall reqs acc cs is ss,
  build_cable env acc reqs = Ok cs ->
  (forall c, In c cs -> exists id, cn_line_structure c = SOwned id /\ In id (ids env)) ->
  owned_list env acc is -> st_list env is ss -> StronglySorted lt ss ->
  exists is' ss', owned_list env cs is' /\ st_list env is' ss' /\ StronglySorted lt ss'.
Proof.
  intros env n HE. induction reqs as [|c reqs IH]; simpl; intros acc cs is ss HB Hcs HO HS HSS.
  - inversion HB; subst. exists is, ss. auto.
  - destruct (AddConnection env acc c) as [[acc' i]| |] eqn:EA; simpl in HB; try discriminate.
    assert (K : acc' = acc \/ In c acc').
    { unfold AddConnection in EA. destruct (cn_line_structure c); [inversion EA; auto| |];
      (destruct (AddConnection_search env c acc 0) as [[p|]| |]; simpl in EA; inversion EA; subst; auto;
       right; apply In_insert_at; auto). }
    destruct K as [->|K]; [eapply IH; eauto|].
    assert (Hc : In c cs) by (eapply build_incl; eauto).
    destruct (Hcs c Hc) as (id & Eid & Hid).
    assert (Hid' := Hid). apply lookup_ids in Hid' as [st Est].
    assert (HD : deref env (cn_line_structure c) = Ok st) by (rewrite Eid; simpl; rewrite Est; auto).
    unfold AddConnection in EA. rewrite Eid in EA.
    rewrite (AddConnection_search_slot env c acc is ss st 0 HD HO HS) in EA. simpl in EA.
    assert (Eis : id_station env id = Some (ls_station st)) by (unfold id_station; rewrite Est; auto).
    assert (Ook : ok (ls_station st)).
    { destruct HE as (A & _). rewrite Forall_forall in A. apply A. apply lookup_In in Est.
      apply (in_map (fun n => ls_station (snd n))) in Est. exact Est. }
    destruct (find_slot (ls_station st) ss 0) as [pos|] eqn:EF; inversion EA; subst.
    + eapply IH; [exact HB|auto| | |].
      * apply owned_list_insert; eauto.
      * apply st_list_insert; eauto.
      * eapply insert_sorted; eauto. eapply st_list_ok; eauto.
    + eapply IH; eauto.
Qed.

(** Stations along the structure list, by identifier. *)
Lemma st_list_ids : forall env, NoDup (ids env) -> st_list env (ids env) (stations env).
Proof.
  intros env ND. unfold st_list.
  assert (K : forall e, (forall x, In x e -> In x env) ->
     Forall2 (fun i s => id_station env i = Some s) (ids e) (stations e)).
  { induction e as [|[i s] e IH]; simpl; intros H; constructor.
    - unfold id_station. rewrite (In_lookup env i s); auto. 
    - apply IH. intros; apply H; simpl; auto. }
  apply K; auto.
Qed.

Lemma st_list_sorted_ids : forall env is ss, st_list env is ss -> StronglySorted lt ss ->
  StronglySorted (id_lt env) is.
Proof.
  intros env is ss H. induction H; intros S; constructor; inversion S; subst; auto.
  apply Forall_forall. intros j Hj. rewrite Forall_forall in H4.
  clear -H H0 H4 Hj. revert Hj. induction H0; simpl; [contradiction|].
  intros [->|Hj].
  - exists y, y0. repeat split; auto. apply H4. simpl; auto.
  - apply IHForall2; auto. intros; apply H4; simpl; auto.
Qed.

Lemma build_conns_in : forall env n reqs cs, structs_ok env n ->
  build_cable env [] reqs = Ok cs ->
  (forall c, In c cs -> exists id, cn_line_structure c = SOwned id /\ In id (ids env)) ->
  conns_in env cs.
Proof.
  intros env n reqs cs HE HB Hcs.
  destruct (build_sorted env n HE reqs [] cs [] []) as (is & ss & [HO1 HO2] & HS & HSS);
    [auto|auto|split; [reflexivity|constructor]|constructor|constructor|].
  - exists is. split; auto.
    assert (HE' := HE). destruct HE' as (A & B & ND & _).
    apply sorted_incl_sub with (R := id_lt env).
    + intros x Hx (a & b & Ea & Eb & L). rewrite Ea in Eb. inversion Eb; subst.
      assert (Ob : ok b).
      { rewrite Forall_forall in A. apply A. unfold id_station in Ea.
        destruct (lookup env x) eqn:E; simpl in Ea; inversion Ea; subst.
        apply lookup_In in E. apply (in_map (fun n => ls_station (snd n))) in E. exact E. }
      unfold lt in L. rewrite (ol_irrefl _ _ OL b Ob) in L. discriminate.
    + intros x y Hx Hy (a & b & Ea & Eb & L) (c & d & Ec & Ed & L').
      rewrite Ea in Ed. rewrite Eb in Ec. inversion Ec; inversion Ed; subst.
      assert (Od : ok d /\ ok c).
      { rewrite Forall_forall in A. split; apply A.
        - unfold id_station in Ea. destruct (lookup env x) eqn:E; simpl in Ea; inversion Ea; subst.
          apply lookup_In in E. apply (in_map (fun n => ls_station (snd n))) in E. exact E.
        - unfold id_station in Eb. destruct (lookup env y) eqn:E; simpl in Eb; inversion Eb; subst.
          apply lookup_In in E. apply (in_map (fun n => ls_station (snd n))) in E. exact E. }
      destruct Od as [Od Oc]. unfold lt in L'. rewrite (lt_asym ok OL d c) in L'; auto. discriminate.
    + eapply st_list_sorted_ids; eauto.
    + eapply st_list_sorted_ids; [apply st_list_ids; auto|auto].
    + intros x Hx. rewrite Forall_forall in HO2; auto.
Qed.

(** ** ModifyLineStructure *)
Lemma list_set_length : forall A n (x : A) m, (n < length m)%nat -> length (list_set n x m) = length m.
Proof.
  intros. unfold list_set. rewrite app_length. cbn [length]. rewrite firstn_length, skipn_length. lia.
Qed.

Lemma list_set_ids : forall n id s s0 (structs : Env N), nth_error structs n = Some (id, s0) ->
  ids (list_set n (id, s) structs) = ids structs.
Proof.
  unfold ids, list_set. induction n; intros id s s0 [|[i q] structs] H; simpl in *; try discriminate.
  - inversion H; subst. auto.
  - f_equal. eapply IHn; eauto.
Qed.

Lemma list_set_lookup_other : forall n id s s0 (structs : Env N) j,
  nth_error structs n = Some (id, s0) -> j <> id ->
  lookup (list_set n (id, s) structs) j = lookup structs j.
Proof.
  unfold list_set. induction n; intros id s s0 [|[i q] structs] j H Hj; simpl in *; try discriminate.
  - inversion H; subst. rewrite (proj2 (Nat.eqb_neq id j)) by auto. auto.
  - destruct (Nat.eqb i j); auto. apply (IHn id s s0 structs j); auto.
Qed.

Lemma list_set_lookup_same : forall n id s s0 (structs : Env N),
  nth_error structs n = Some (id, s0) -> NoDup (ids structs) ->
  lookup (list_set n (id, s) structs) id = Some s.
Proof.
  intros n id s s0 structs H ND. apply In_lookup.
  - erewrite list_set_ids; eauto.
  - unfold list_set. apply in_or_app. simpl; auto.
Qed.

Lemma next_deref_ok : forall A (m : list A) i a, next_deref m i = Ok a <->
  (0 <= i)%Z /\ nth_error m (Z.to_nat i) = Some a.
Proof.
  intros A m i a. unfold next_deref. destruct (Z.ltb_spec i 0).
  - split; [discriminate|lia].
  - destruct (nth_error m (Z.to_nat i)) eqn:E; split; intros K; try discriminate.
    + inversion K; subst. split; auto; lia.
    + destruct K as [_ K]. inversion K; auto.
    + destruct K; discriminate.
Qed.

Lemma nth_error_skipn' : forall A n (m : list A) k, nth_error (skipn n m) k = nth_error m (n + k).
Proof. intros A; induction n; intros [|a m] k; simpl; auto. destruct k; auto. Qed.

Lemma nth_error_firstn' : forall A n (m : list A) k, (k < n)%nat ->
  nth_error (firstn n m) k = nth_error m k.
Proof.
  intros A; induction n; intros [|a m] k H; simpl; auto; try lia. destruct k; simpl; auto. apply IHn. lia.
Qed.

(** Replacing a station by one strictly between its neighbours keeps order. *)
Lemma SS_list_set : forall (ss : list N) n x, (n < length ss)%nat -> ok x -> Forall ok ss ->
  StronglySorted lt ss ->
  (n <> 0%nat -> exists a, nth_error ss (n - 1) = Some a /\ lt a x) ->
  ((n + 1 < length ss)%nat -> exists b, nth_error ss (n + 1) = Some b /\ lt x b) ->
  StronglySorted lt (list_set n x ss).
Proof.
  intros ss n x Hn Hx Hok HS Hb Ha.
  destruct (nth_error ss n) as [y|] eqn:En; [|apply nth_error_None in En; lia].
  assert (E := split_nth n ss y Hn).
  assert (HS' := HS). rewrite E in HS'. apply SS_app in HS' as (S1 & S2 & S3).
  apply SS_cons in S2 as [S2 S4].
  unfold list_set. apply SS_app. split; auto. split; [apply SS_cons; split; auto|].
  - (* x below everything behind *)
    intros b Hb'. destruct (skipn (S n) ss) as [|b0 rest] eqn:Esk; [contradiction|].
    assert (L : (n + 1 < length ss)%nat).
    { assert (K : length (skipn (S n) ss) = length (b0 :: rest)) by (rewrite Esk; auto).
      rewrite skipn_length in K. simpl in K. lia. }
    destruct (Ha L) as (b1 & Eb1 & L1).
    assert (b1 = b0).
    { assert (K : nth_error (skipn (S n) ss) 0 = Some b0) by (rewrite Esk; auto).
      rewrite nth_error_skipn' in K. replace (S n + 0)%nat with (n + 1)%nat in K by lia. congruence. }
    subst b1. destruct Hb' as [->|Hb']; auto.
    apply SS_cons in S2 as [S2 S5]. apply (ol_trans _ _ OL x b0 b); auto.
    + rewrite Forall_forall in Hok. apply Hok. eapply nth_error_In; eauto.
    + rewrite Forall_forall in Hok. apply Hok. rewrite E. apply in_or_app. right. simpl. auto.
    + apply S5; auto.
  - intros a b Ha' [->|Hb'].
    + (* everything before below x *)
      assert (n <> 0%nat) by (intros ->; contradiction).
      destruct (Hb H) as (a0 & Ea0 & L0).
      assert (L : a = a0 \/ lt a a0).
      { apply In_nth_error in Ha' as [k Hk].
        assert (Hkn : (k < n)%nat).
        { assert (k < length (firstn n ss))%nat by (apply nth_error_Some; congruence).
          rewrite firstn_length in H0. lia. }
        rewrite nth_error_firstn' in Hk by auto.
        destruct (Nat.eq_dec k (n - 1)) as [->|]; [left; congruence|right].
        apply increasing_SS in HS. apply (HS k (n - 1)%nat a a0); auto; lia. }
      destruct L as [->|L]; auto.
      apply (ol_trans _ _ OL a a0 b); auto.
      * rewrite Forall_forall in Hok. apply Hok. rewrite <- (firstn_skipn n ss). apply in_or_app; auto.
      * rewrite Forall_forall in Hok. apply Hok. eapply nth_error_In; eauto.
    + apply S3; simpl; auto.
Qed.


(** ** States with the same content *)
Definition same_content l l' : Prop :=
  tl_alignment l' = tl_alignment l /\ tl_line_cables l' = tl_line_cables l /\
  tl_line_structures l' = tl_line_structures l.

Lemma same_content_Inv : forall l l', same_content l l' -> tl_next l' = tl_next l -> Inv l -> Inv l'.
Proof. intros l l' (A & B & C) D (I1 & I2 & I3). unfold Inv. rewrite A, B, C, D. auto. Qed.

Lemma Update_content : forall l l' r, Update l = (l', r) ->
  same_content l l' /\ tl_next l' = tl_next l /\ tl_origin l' = tl_origin l.
Proof.
  intros l l' r H. unfold Update in H. unfold same_content.
  destruct (tl_is_updated_alignment l); simpl in H;
  (destruct (tl_is_updated_structures l); simpl in H; [inversion H; subst; auto|];
   destruct (UpdatePointsXyzLineStructures_loop _ _ _) as [ps []]; inversion H; subst; simpl; auto).
Qed.

Lemma query_content : forall A l (f : A) k l' r, query l f k = (l', r) ->
  same_content l l' /\ tl_next l' = tl_next l /\ tl_origin l' = tl_origin l.
Proof.
  intros A l f k l' r H. unfold query in H. destruct (IsUpdated l).
  - inversion H; subst. unfold same_content; auto.
  - destruct (Update l) as [l1 r1] eqn:E. apply Update_content in E.
    destruct r1 as [[]| |]; inversion H; subst; auto.
Qed.

(** ** ModifyLineStructure *)
Definition in_range env (c : Connection N) : Prop :=
  exists s, deref env (cn_line_structure c) = Ok s /\
    (0 <= cn_index_attachment c < Z.of_nat (length (ls_hardwares s)))%Z.

Lemma vec_at_range : forall A (m : list A) i, (0 <= i < Z.of_nat (length m))%Z ->
  exists a, vec_at m i = Ok a.
Proof.
  intros A m i H. unfold vec_at. destruct (Z.ltb_spec i 0); [lia|].
  destruct (nth_error m (Z.to_nat i)) eqn:E; eauto. apply nth_error_None in E. lia.
Qed.

Lemma vec_at_ok_range : forall A (m : list A) i a, vec_at m i = Ok a ->
  (0 <= i < Z.of_nat (length m))%Z /\ nth_error m (Z.to_nat i) = Some a.
Proof.
  intros A m i a. unfold vec_at. destruct (Z.ltb_spec i 0); [discriminate|].
  destruct (nth_error m (Z.to_nat i)) eqn:E; [|discriminate]. intros K. inversion K; subst.
  split; auto. assert (Z.to_nat i < length m)%nat by (apply nth_error_Some; congruence). lia.
Qed.

Lemma validate_in_range : forall env cs, Forall (in_range env) cs ->
  ValidateConnections_loop env cs <> Throw.
Proof.
  induction 1 as [|c cs (s & E1 & E2) H IH]; simpl; [discriminate|].
  rewrite E1. simpl. destruct (vec_at_range _ _ _ E2) as [[h|] ->]; simpl; auto; discriminate.
Qed.

Lemma delete_invalid_no_throw : forall env cables,
  Forall (fun lc => Forall (in_range env) (lc_connections lc)) cables ->
  snd (DeleteInvalidLineCables env cables) <> Throw.
Proof.
  induction 1 as [|lc cables Hlc H IH]; simpl; [discriminate|].
  assert (K := validate_in_range _ _ Hlc). unfold ValidateConnections.
  destruct (Nat.ltb (length (lc_connections lc)) 2); auto.
  destruct (ValidateConnections_loop _ _) as [[]| |]; simpl; try congruence; try discriminate.
  destruct (DeleteInvalidLineCables env cables); auto.
Qed.

Lemma delete_invalid_loses_nothing : forall env cables,
  snd (DeleteInvalidLineCables env cables) = Ok tt ->
  Forall (fun lc => long_enough lc = true -> ValidateConnections env (lc_connections lc) = Ok true) cables.
Proof.
  intros env cables H. destruct (DeleteInvalidLineCables env cables) as [c' r] eqn:E. simpl in H. subst.
  apply delete_invalid_ok in E as [-> F]. rewrite Forall_forall in F. apply Forall_forall.
  intros lc Hlc L. apply F. apply filter_In; auto.
Qed.

(** Outcome of a ModifyLineStructure that is not rejected. *)
Lemma ModifyLineStructure_cases : forall l i s l' r, ModifyLineStructure l i s = (l', r) ->
  r <> UB ->
  (l' = stale_structures l /\ r = Ok false) \/
  (exists id s0 st, (0 <= i)%Z /\ nth_error (tl_line_structures l) (Z.to_nat i) = Some (id, s0) /\
    ls_structure s = Some st /\
    (i <> 0%Z -> exists nb, nth_error (tl_line_structures l) (Z.to_nat (i - 1)) = Some nb /\
        (ls_station s <=? ls_station (snd nb)) = false) /\
    ((i < Z.of_nat (length (tl_line_structures l)) - 1)%Z ->
        exists na, nth_error (tl_line_structures l) (Z.to_nat (i + 1)) = Some na /\
        (ls_station (snd na) <=? ls_station s) = false) /\
    (i = 0%Z -> exists pf, front (tl_alignment l) = Ok pf /\
        (ls_station s <=? ap_station pf - #1) = false) /\
    (i = (Z.of_nat (length (tl_line_structures l)) - 1)%Z -> exists pb, back (tl_alignment l) = Ok pb /\
        (ap_station pb + #1 <=? ls_station s) = false) /\
    let structs' := list_set (Z.to_nat i) (id, s) (tl_line_structures l) in
    let cables' := strip (fun c => negb (points_to id c &&
                     (Z.of_nat (length (st_attachments st)) <=? cn_index_attachment c)%Z))
                     (tl_line_cables l) in
    exists cables'' r', DeleteInvalidLineCables structs' cables' = (cables'', r') /\
      r = omap (fun _ => true) r' /\
      l' = with_cables (with_structures (stale_structures l) structs' (tl_next l)) cables'').
Proof.
  intros l i s l' r H Hr. unfold ModifyLineStructure in H.
  destruct (IsValidLineStructureIndex (stale_structures l) i) eqn:EV; cbn [negb] in H;
    [|inversion H; subst; auto].
  unfold IsValidLineStructureIndex in EV.
  change (tl_line_structures (stale_structures l)) with (tl_line_structures l) in *.
  change (tl_alignment (stale_structures l)) with (tl_alignment l) in *.
  change (tl_next (stale_structures l)) with (tl_next l) in *.
  apply valid_index_true in EV.
  destruct (tl_alignment l) as [|p0 ps] eqn:EA; [simpl in H; inversion H; subst; congruence|].
  destruct (nth_error (tl_line_structures l) (Z.to_nat i)) as [[id s0]|] eqn:En;
    [|apply nth_error_None in En; lia].
  assert (Ni : next_deref (tl_line_structures l) i = Ok (id, s0)) by (apply next_deref_ok; split; auto; lia).
  rewrite Ni in H. cbn [front back obind] in H.
  assert (Hsb : exists sb, (if (i =? 0)%Z then Ok (ap_station p0 - #1)
       else omap (fun s => ls_station (snd s)) (next_deref (tl_line_structures l) (i - 1))) = Ok sb /\
      (i = 0%Z -> sb = ap_station p0 - #1) /\
      (i <> 0%Z -> exists nb, nth_error (tl_line_structures l) (Z.to_nat (i - 1)) = Some nb /\
         sb = ls_station (snd nb))).
  { destruct (Z.eqb_spec i 0) as [->|Hi]; [eexists; split; [reflexivity|split; [auto|congruence]]|].
    destruct (nth_error (tl_line_structures l) (Z.to_nat (i - 1))) as [nb|] eqn:Eb;
      [|apply nth_error_None in Eb; lia].
    assert (K : next_deref (tl_line_structures l) (i - 1) = Ok nb) by (apply next_deref_ok; split; auto; lia).
    rewrite K. eexists; split; [reflexivity|]. split; [congruence|]. intros _. exists nb; auto. }
  destruct Hsb as (sb & Esb & Hsb0 & Hsb1). rewrite Esb in H. cbn [obind] in H.
  assert (Hsa : exists sa, (if (i =? Z.of_nat (length (tl_line_structures l)) - 1)%Z
       then Ok (ap_station (last ps p0) + #1)
       else omap (fun s => ls_station (snd s)) (next_deref (tl_line_structures l) (i + 1))) = Ok sa /\
      (i = (Z.of_nat (length (tl_line_structures l)) - 1)%Z -> sa = ap_station (last ps p0) + #1) /\
      (i <> (Z.of_nat (length (tl_line_structures l)) - 1)%Z ->
         exists na, nth_error (tl_line_structures l) (Z.to_nat (i + 1)) = Some na /\
         sa = ls_station (snd na))).
  { destruct (Z.eqb_spec i (Z.of_nat (length (tl_line_structures l)) - 1)) as [Hi|Hi];
      [eexists; split; [reflexivity|split; [auto|congruence]]|].
    destruct (nth_error (tl_line_structures l) (Z.to_nat (i + 1))) as [na|] eqn:Eb;
      [|apply nth_error_None in Eb; lia].
    assert (K : next_deref (tl_line_structures l) (i + 1) = Ok na) by (apply next_deref_ok; split; auto; lia).
    rewrite K. eexists; split; [reflexivity|]. split; [congruence|]. intros _. exists na; auto. }
  destruct Hsa as (sa & Esa & Hsa0 & Hsa1). rewrite Esa in H. cbn [obind fst] in H.
  destruct (ls_station s <=? sb) eqn:E1; [inversion H; subst; auto|].
  destruct (sa <=? ls_station s) eqn:E2; [inversion H; subst; auto|]. cbn [orb] in H.
  unfold DeleteInvalidConnectionsFromStructure in H.
  destruct (ls_structure s) as [st|] eqn:Est; [|inversion H; subst; congruence].
  right. exists id, s0, st. split; [lia|]. split; [auto|]. split; [auto|].
  split; [intros Hi; destruct (Hsb1 Hi) as (nb & K1 & ->); exists nb; auto|].
  split; [intros Hi; destruct Hsa1 as (na & K1 & ->); [lia|]; exists na; auto|].
  split; [intros Hi; exists p0; split; auto; rewrite <- Hsb0; auto|].
  split; [intros Hi; exists (last ps p0); split; auto; rewrite <- Hsa0; auto|].
  cbn zeta.
  unfold line_DeleteInvalidLineCables in H.
  change (tl_line_cables (with_structures (stale_structures l) (list_set (Z.to_nat i) (id, s) (tl_line_structures l))
                (tl_next l))) with (tl_line_cables l) in H.
  match goal with H : context [with_cables ?a (map ?f (tl_line_cables l))] |- _ =>
    change (map f (tl_line_cables l)) with (strip (fun c => negb (points_to id c &&
                     (Z.of_nat (length (st_attachments st)) <=? cn_index_attachment c)%Z))
                     (tl_line_cables l)) in H end.
  change (tl_line_structures (with_cables (with_structures (stale_structures l)
    (list_set (Z.to_nat i) (id, s) (tl_line_structures l)) (tl_next l)) ?x)) with
    (list_set (Z.to_nat i) (id, s) (tl_line_structures l)) in H.
  simpl in H.
  destruct (DeleteInvalidLineCables _ _) as [cables'' r'] eqn:ED.
  exists cables'', r'. split; [auto|].
  destruct r'; inversion H; subst; auto.
Qed.

End P.
