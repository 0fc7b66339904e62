(** Ownership of the derivative of a polynomial. *)
From Coq Require Import ZArith Bool List Lia Reals Lra.
From Verif Require Import Num NumFacts ModelBase ModelPolynomial ModelHeap SpecHeap ProofReal.
Import ListNotations.
Open Scope Z_scope.

Lemma put_same : forall A (f : Z -> option A) i x, put f i x i = x.
Proof. intros. unfold put. rewrite Z.eqb_refl. reflexivity. Qed.
Lemma put_other : forall A (f : Z -> option A) i x j, j <> i -> put f i x j = f j.
Proof. intros. unfold put. destruct (Z.eqb_spec j i); [contradiction|reflexivity]. Qed.
Ltac puts := repeat (rewrite put_same in * || (rewrite put_other in * by (assumption || lia || congruence))).

Section Own.
Context {N : Num}.

Record owned (before : list Z) (m : Memory N) : Prop := {
  ow_p : forall i o, me_polynomials m i = Some o -> i < me_next m;
  ow_d : forall d p, me_derivatives m d = Some p -> d < me_next m;
  ow_b : forall i, In i before -> i < me_next m;
  ow_i : forall i o d, me_polynomials m i = Some o -> ob_derivative o = Some d -> me_derivatives m d = Some (VDerivative i) /\ In i before;
  ow_o : forall d p, me_derivatives m d = Some p -> exists i o, p = VDerivative i /\ me_polynomials m i = Some o /\ ob_derivative o = Some d;
  ow_u : forall i o, me_polynomials m i = Some o -> ob_updated o = true -> ob_derivative o <> None
}.

Lemma owned_more : forall b1 b2 m, owned b1 m -> (forall i, In i b2 -> i < me_next m) -> (forall i, In i b1 -> In i b2) -> owned b2 m.
Proof.
  intros b1 b2 m H B S. constructor; try apply H; auto.
  intros i o d P D. destruct (ow_i _ _ H i o d P D) as (A & Q). auto.
Qed.

(** An object without a derivative takes the place of another such object, or a new one. *)
Lemma owned_put : forall b m i o n, owned b m -> i < n -> me_next m <= n -> ob_derivative o = None -> ob_updated o = false ->
  (forall o', me_polynomials m i = Some o' -> ob_derivative o' = None) ->
  owned b (mkMemory (me_vectors m) (put (me_polynomials m) i (Some o)) (me_derivatives m) n).
Proof.
  intros b m i o n H L1 L2 D U OLD. constructor; cbn [me_polynomials me_derivatives me_next].
  - intros j o' P. destruct (Z.eq_dec j i) as [->|E]; puts; [exact L1|]. apply (ow_p _ _ H) in P. lia.
  - intros d p P. apply (ow_d _ _ H) in P. lia.
  - intros j J. apply (ow_b _ _ H) in J. lia.
  - intros j o' d P. destruct (Z.eq_dec j i) as [->|E]; puts; [congruence|]. apply (ow_i _ _ H); assumption.
  - intros d p P. destruct (ow_o _ _ H d p P) as (j & o' & A & B & C). exists j, o'. split; [exact A|]. split; [|exact C].
    destruct (Z.eq_dec j i) as [->|E]; puts; [|exact B]. rewrite (OLD _ B) in C. discriminate C.
  - intros j o' P. destruct (Z.eq_dec j i) as [->|E]; puts; [congruence|]. apply (ow_u _ _ H _ _ P).
Qed.

Lemma owned_create : forall b m o, owned b m -> ob_derivative o = None -> ob_updated o = false -> owned b (me_create m o).
Proof.
  intros b m o H D U. unfold me_create. apply owned_put; auto; try lia.
  intros o' P. apply (ow_p _ _ H) in P. lia.
Qed.

Lemma owned_delete : forall b m i o, owned b m -> me_polynomials m i = Some o ->
  exists m', me_delete m (ob_derivative o) = Ok m' /\ me_vectors m' = me_vectors m /\ me_polynomials m' = me_polynomials m /\
    me_next m' = me_next m /\ (forall d, me_derivatives m' d = if match ob_derivative o with Some d' => d =? d' | None => false end then None else me_derivatives m d).
Proof.
  intros b m i o H P. unfold me_delete. destruct (ob_derivative o) as [d|] eqn:D.
  - destruct (ow_i _ _ H i o d P D) as (A & _). rewrite A. eexists. repeat (split; [reflexivity|]). intros d'. reflexivity.
  - eexists. repeat (split; [reflexivity|]). reflexivity.
Qed.

Lemma owned_destroy : forall b m i o, owned b m -> me_polynomials m i = Some o -> exists m', me_destroy m i = Ok m' /\ owned b m' /\
  me_polynomials m' = put (me_polynomials m) i None.
Proof.
  intros b m i o H P. unfold me_destroy, me_get. rewrite P. cbn [obind].
  destruct (owned_delete b m i o H P) as (m' & E & V & Q & X & D). rewrite E. cbn [obind]. eexists. split; [reflexivity|].
  split; [|cbn; rewrite Q; reflexivity].
  constructor; cbn [me_set me_polynomials me_derivatives me_next]; rewrite ?Q, ?X.
  - intros j o'. destruct (Z.eq_dec j i) as [->|E']; puts; [discriminate|]. apply (ow_p _ _ H).
  - intros d p. rewrite D. match goal with |- (if ?c then _ else _) = _ -> _ => destruct c; [discriminate|] end. apply (ow_d _ _ H).
  - apply (ow_b _ _ H).
  - intros j o' d. destruct (Z.eq_dec j i) as [->|E']; puts; [discriminate|]. intros P' D'.
    destruct (ow_i _ _ H j o' d P' D') as (A & B). split; [|exact B]. rewrite D.
    destruct (ob_derivative o) as [d'|] eqn:DO; [|exact A]. destruct (Z.eqb_spec d d') as [->|]; [|exact A].
    destruct (ow_i _ _ H i o d' P DO) as (C & _). congruence.
  - intros d p. rewrite D. match goal with |- (if ?c then _ else _) = _ -> _ => destruct c eqn:M; [discriminate|] end. intros Q'.
    destruct (ow_o _ _ H d p Q') as (j & o' & A & B & C). exists j, o'. split; [exact A|]. split; [|exact C].
    destruct (Z.eq_dec j i) as [->|E']; puts; [|exact B]. exfalso. rewrite P in B. injection B as <-. rewrite C in M. rewrite Z.eqb_refl in M. discriminate M.
  - intros j o'. destruct (Z.eq_dec j i) as [->|E']; puts; [discriminate|]. apply (ow_u _ _ H).
Qed.

(** An update. *)
Lemma owned_update : forall b m i m', owned b m -> me_update m i = Ok m' -> owned (i :: b) m' /\ i < me_next m' /\
  (exists o o', me_polynomials m i = Some o /\ me_polynomials m' i = Some o' /\ ob_coefficients o' = ob_coefficients o /\ ob_updated o' = true) /\
  (forall j, j <> i -> me_polynomials m' j = me_polynomials m j) /\ me_vectors m' = me_vectors m.
Proof.
  intros b m i m' H. unfold me_update, me_get. destruct (me_polynomials m i) as [o|] eqn:P; [|discriminate]. cbn [obind].
  destruct (ob_updated o) eqn:U.
  - intros E. injection E as <-. split.
    + apply (owned_more b); auto; [|intros; right; assumption]. intros j [<-|J]; [apply (ow_p _ _ H _ _ P)|apply (ow_b _ _ H _ J)].
    + split; [apply (ow_p _ _ H _ _ P)|]. split; [exists o, o; auto|auto].
  - destruct (me_read m (ob_coefficients o)) as [l| |]; try discriminate. cbn [obind].
    match goal with |- (if ?c then _ else _) = _ -> _ => destruct c; [discriminate|] end.
    cbv zeta.
    destruct (owned_delete b m i o H P) as (m1 & E & V & Q & X & D). rewrite E. cbn [obind]. intros F. injection F as <-.
    rewrite Q, X, V. pose proof (ow_p _ _ H _ _ P) as LI. split.
    { constructor; cbn [me_polynomials me_derivatives me_next].
      - intros j o'. destruct (Z.eq_dec j i) as [->|E']; puts; [intros _; lia|]. intros R. apply (ow_p _ _ H) in R. lia.
      - intros d p. destruct (Z.eq_dec d (me_next m)) as [->|E']; puts; [intros _; lia|]. rewrite D. match goal with |- (if ?c then _ else _) = _ -> _ => destruct c; [discriminate|] end.
        intros R. apply (ow_d _ _ H) in R. lia.
      - intros j [<-|J]; [lia|]. apply (ow_b _ _ H) in J. lia.
      - intros j o' d. destruct (Z.eq_dec j i) as [->|E']; puts.
        + intros R. injection R as <-. cbn [ob_derivative]. intros R. injection R as <-. puts. split; [reflexivity|left; reflexivity].
        + intros R S. destruct (ow_i _ _ H j o' d R S) as (A & B). pose proof (ow_d _ _ H _ _ A) as L. puts. split; [|right; exact B]. rewrite D.
          destruct (ob_derivative o) as [d'|] eqn:DO; [|exact A]. destruct (Z.eqb_spec d d') as [->|]; [|exact A].
          destruct (ow_i _ _ H i o d' P DO) as (C & _). congruence.
      - intros d p. destruct (Z.eq_dec d (me_next m)) as [->|E']; puts.
        + intros R. injection R as <-. eexists i, _. split; [reflexivity|]. puts. split; reflexivity.
        + rewrite D. match goal with |- (if ?c then _ else _) = _ -> _ => destruct c eqn:M; [discriminate|] end. intros R.
          destruct (ow_o _ _ H d p R) as (j & o' & A & B & C). exists j, o'. split; [exact A|]. split; [|exact C].
          destruct (Z.eq_dec j i) as [->|E2]; puts; [|exact B]. exfalso. rewrite P in B. injection B as <-. rewrite C in M. rewrite Z.eqb_refl in M. discriminate M.
      - intros j o'. destruct (Z.eq_dec j i) as [->|E']; puts; [|apply (ow_u _ _ H)].
        intros R. injection R as <-. discriminate. }
    cbn [me_next me_polynomials me_vectors]. split; [lia|]. split; [|split; [|reflexivity]].
    + eexists o, _. puts. split; [reflexivity|]. split; [reflexivity|]. split; reflexivity.
    + intros j J. puts. reflexivity.
Qed.

Lemma owned_slopes : forall b m i o, owned b m -> me_polynomials m i = Some o -> ob_updated o = true ->
  me_slopes m i = Ok (ob_coefficients_derivative o) /\
  exists d, ob_derivative o = Some d /\ me_derivatives m d = Some (VDerivative i).
Proof.
  intros b m i o H P U. unfold me_slopes, me_get. rewrite P. cbn [obind]. destruct (ob_derivative o) as [d|] eqn:D; [|destruct (ow_u _ _ H _ _ P U D)].
  destruct (ow_i _ _ H i o d P D) as (A & _). rewrite A. cbn [me_read me_get]. unfold me_get. rewrite P. cbn [obind]. eauto.
Qed.

Lemma owned_vectors : forall b m v, owned b m -> owned b (mkMemory v (me_polynomials m) (me_derivatives m) (me_next m)).
Proof. intros b m v H. constructor; cbn; apply H. Qed.

Lemma owned_call : forall b m c m', owned b m -> careful b [c] -> heap_call m c = Ok m' -> owned (asked c ++ b) m'.
Proof.
  intros b m c m' H [C _] E. destruct c; cbn [asked app heap_call] in *.
  - injection E as <-. apply owned_vectors. exact H.
  - injection E as <-. apply owned_create; auto.
  - injection E as <-. apply owned_create; auto.
  - unfold me_copy, me_get in E. destruct (me_polynomials m i) as [o|] eqn:P; [|discriminate]. injection E as <-.
    assert (D : ob_derivative o = None). { destruct (ob_derivative o) eqn:D; [|reflexivity]. destruct (ow_i _ _ H _ _ _ P D); contradiction. }
    apply owned_create; auto. destruct (ob_updated o) eqn:U; [|reflexivity]. destruct (ow_u _ _ H _ _ P U D).
  - unfold me_assign, me_get in E. destruct (me_polynomials m j) as [o|] eqn:P; [|discriminate]. cbn [obind] in E.
    destruct (me_polynomials m i) as [o'|] eqn:P'; [|discriminate]. injection E as <-.
    assert (D : ob_derivative o = None). { destruct (ob_derivative o) eqn:D; [|reflexivity]. destruct (ow_i _ _ H _ _ _ P D). tauto. }
    unfold me_set. apply owned_put; auto; try lia.
    + apply (ow_p _ _ H _ _ P').
    + destruct (ob_updated o) eqn:U; [|reflexivity]. destruct (ow_u _ _ H _ _ P U D).
    + intros o2 R. destruct (ob_derivative o2) eqn:D2; [|reflexivity]. destruct (ow_i _ _ H _ _ _ R D2). tauto.
  - unfold me_destroy, me_get in E. destruct (me_polynomials m i) as [o|] eqn:P; [|discriminate].
    destruct (owned_destroy b m i o H P) as (m2 & E2 & G & _). unfold me_destroy, me_get in E2. rewrite P in E2. congruence.
  - unfold me_set_coefficients, me_get in E. destruct (me_polynomials m i) as [o|] eqn:P; [|discriminate]. injection E as <-.
    constructor; cbn [me_set me_polynomials me_derivatives me_next].
    + intros j o'. destruct (Z.eq_dec j i) as [->|E']; puts; [intros _; apply (ow_p _ _ H _ _ P)|apply (ow_p _ _ H)].
    + apply (ow_d _ _ H).
    + apply (ow_b _ _ H).
    + intros j o' d. destruct (Z.eq_dec j i) as [->|E']; puts; [|apply (ow_i _ _ H)]. intros R. injection R as <-. cbn. apply (ow_i _ _ H _ _ _ P).
    + intros d q R. destruct (ow_o _ _ H d q R) as (j & o' & A & B & D). destruct (Z.eq_dec j i) as [->|E'].
      * eexists i, _. puts. split; [exact A|]. split; [reflexivity|]. cbn. congruence.
      * exists j, o'. puts. auto.
    + intros j o'. destruct (Z.eq_dec j i) as [->|E']; puts; [intros R; injection R as <-; discriminate|apply (ow_u _ _ H)].
  - unfold me_Y in E. destruct (me_get m i); try discriminate. cbn [obind] in E. destruct (me_read m _); try discriminate. injection E as <-. exact H.
  - unfold me_Slope in E. destruct (me_update m i) as [m1| |] eqn:U; try discriminate. cbn [obind] in E.
    destruct (me_slopes m1 i); try discriminate. injection E as <-. apply (owned_update _ _ _ _ H U).
  - unfold me_X in E. destruct (me_update m i) as [m1| |] eqn:U; cbn [obind] in E; try discriminate.
    assert (G := proj1 (owned_update _ _ _ _ H U)).
    destruct (me_get m1 i) as [o| |]; cbn [obind] in E; try discriminate; [|injection E as <-; exact G].
    destruct (me_read m1 _) as [[|c r]| |]; cbn [obind] in E; try discriminate; try (injection E as <-; exact G).
    destruct (me_slopes m1 i); cbn [obind] in E; try discriminate; injection E as <-; exact G.
  - unfold me_Validate, me_get in E. destruct (me_polynomials m i) as [o|] eqn:P; [|discriminate]. cbn [obind] in E.
    assert (Q : owned (i :: b) m).
    { apply (owned_more b); auto; [|intros; right; assumption]. intros j [<-|J]; [apply (ow_p _ _ H _ _ P)|apply (ow_b _ _ H _ J)]. }
    destruct (ob_coefficients o); try discriminate.
    + injection E as <-. exact Q.
    + destruct (me_update m i) as [m1| |] eqn:U; try discriminate. injection E as <-. apply (owned_update _ _ _ _ H U).
    + destruct (me_update m i) as [m1| |] eqn:U; try discriminate. injection E as <-. apply (owned_update _ _ _ _ H U).
  - unfold me_Derivative in E. destruct (me_update m i) as [m1| |] eqn:U; try discriminate. cbn [obind] in E.
    assert (G := proj1 (owned_update _ _ _ _ H U)). destruct (me_get m1 i) as [o| |]; try discriminate. cbn [obind] in E.
    destruct (ob_derivative o); try discriminate. destruct (me_derivatives m1 z); try discriminate. injection E as <-. apply owned_create; auto.
Qed.

Lemma careful_one : forall b (c : HeapCall N) cs, careful b (c :: cs) -> careful b [c] /\ careful (asked c ++ b) cs.
Proof. intros b c cs (A & B). split; [split; [exact A|exact I]|exact B]. Qed.

Lemma owned_run : forall (cs : list (HeapCall N)) b m m', owned b m -> careful b cs -> heap_run m cs = Ok m' -> exists b', owned b' m'.
Proof.
  induction cs as [|c cs IH]; intros b m m' H C E.
  - injection E as <-. eauto.
  - apply careful_one in C as (C1 & C2). cbn [heap_run] in E. destruct (heap_call m c) as [m1| |] eqn:F; try discriminate. cbn [obind] in E.
    eapply IH; [|exact C2|exact E]. eapply owned_call; eauto.
Qed.

Lemma owned_empty : owned [] (@Memory_empty N).
Proof. constructor; cbn; try discriminate; try contradiction. Qed.

(** ** The statements of the properties *)
Lemma destroy_all : forall b (is : list Z) m, owned b m -> NoDup is -> (forall i, In i is -> lives m i) ->
  exists m', heap_run m (map HDestroy is) = Ok m' /\ owned b m' /\ (forall j, lives m' j <-> lives m j /\ ~ In j is).
Proof.
  intros b. induction is as [|i is IH]; intros m H ND L.
  - exists m. split; [reflexivity|]. split; [exact H|]. intros j. cbn. tauto.
  - cbn [map heap_run heap_call]. pose proof (L i (or_introl eq_refl)) as LI. unfold lives in LI. destruct (me_polynomials m i) as [o|] eqn:P; [|congruence].
    destruct (owned_destroy b m i o H P) as (m1 & E & G & Q). rewrite E. cbn [obind]. inversion ND as [|? ? NI ND']; subst.
    assert (V : forall j, lives m1 j <-> lives m j /\ j <> i).
    { intros j. unfold lives. rewrite Q. destruct (Z.eq_dec j i) as [->|E']; puts; tauto. }
    destruct (IH m1 G ND') as (m' & A & B & C).
    + intros j J. apply V. split; [apply L; right; exact J|]. intros ->. contradiction.
    + exists m'. split; [exact A|]. split; [exact B|]. intros j. rewrite C, V. cbn [In]. split.
      * intros ((X & Y) & Z). split; [exact X|]. intros [<-|W]; contradiction.
      * intros (X & Y). split; [split; [exact X|]|]; intros W; apply Y; auto.
Qed.

Lemma ownership : forall (cs : list (HeapCall N)) m, heap_run Memory_empty cs = Ok m -> careful [] cs ->
  (forall is, NoDup is -> (forall i, In i is <-> lives m i) ->
     exists m', heap_run m (map HDestroy is) = Ok m' /\ (forall i, ~ lives m' i) /\ forall d, me_derivatives m' d = None) /\
  (forall i, readable m i -> forall x, me_Slope m i x <> UB /\ forall y n g, me_X m i y n g <> UB).
Proof.
  intros cs m E C. destruct (owned_run cs [] _ m owned_empty C E) as (b & H). split.
  - intros is ND L. destruct (destroy_all b is m H ND (fun i => proj1 (L i))) as (m' & A & B & D). exists m'. split; [exact A|].
    assert (K : forall i, ~ lives m' i). { intros i X. apply D in X as (X & Y). apply Y, L, X. }
    split; [exact K|]. intros d. destruct (me_derivatives m' d) as [p|] eqn:P; [|reflexivity].
    destruct (ow_o _ _ B d p P) as (i & o & _ & Q & _). exfalso. apply (K i). unfold lives. congruence.
  - intros i (o & P & RD) x.
    assert (U : me_update m i <> UB /\ forall m1, me_update m i = Ok m1 -> exists l d, me_slopes m1 i = Ok d /\
      exists o1, me_get m1 i = Ok o1 /\ me_read m1 (ob_coefficients o1) = Ok l).
    { split.
      - unfold me_update, me_get. rewrite P. cbn [obind]. destruct (ob_updated o); [discriminate|].
        destruct (me_read m (ob_coefficients o)) as [l| |] eqn:RR; cbn [obind]; [|discriminate|].
        + match goal with |- (if ?c then _ else _) <> _ => destruct c; [discriminate|] end.
          destruct (owned_delete b m i o H P) as (m1 & F & _). rewrite F. discriminate.
        + exfalso. destruct (ob_coefficients o); cbn [me_read] in RR; try contradiction.
          * destruct (me_vectors m a); [discriminate|]. apply RD. reflexivity.
          * unfold lives in RD. unfold me_get in RR. destruct (me_polynomials m i0); [discriminate|]. apply RD. reflexivity.
      - intros m1 F. destruct (owned_update b m i m1 H F) as (G & _ & (o0 & o1 & P0 & P1 & PC & PU) & OT & VE).
        destruct (owned_slopes _ _ _ _ G P1 PU) as (S & _). rewrite P in P0. injection P0 as <-.
        assert (RE : exists l, me_read m1 (ob_coefficients o1) = Ok l).
        { rewrite PC. destruct (ob_coefficients o); cbn [me_read]; try contradiction.
          - rewrite VE. destruct (me_vectors m a); [eauto|]. destruct RD. reflexivity.
          - unfold me_get. destruct (Z.eq_dec i0 i) as [->|E'].
            + rewrite P1. cbn. eauto.
            + rewrite (OT _ E'). unfold lives in RD. destruct (me_polynomials m i0); [cbn; eauto|]. destruct RD. reflexivity. }
        destruct RE as (l & RE). exists l, (ob_coefficients_derivative o1). split; [exact S|]. exists o1. split; [|exact RE]. unfold me_get. rewrite P1. reflexivity. }
    destruct U as (U1 & U2). split.
    + unfold me_Slope. destruct (me_update m i) as [m1| |]; cbn [obind]; [|discriminate|contradiction].
      destruct (U2 m1 eq_refl) as (l & d & S & _). rewrite S. discriminate.
    + intros y n g. unfold me_X. destruct (me_update m i) as [m1| |]; cbn [obind]; [|discriminate|contradiction].
      destruct (U2 m1 eq_refl) as (l & d & S & o1 & G & RE). rewrite G. cbn [obind]. rewrite RE. cbn [obind]. destruct l; [discriminate|]. rewrite S. discriminate.
Qed.

(** The derivative polynomial. *)
Definition shown (m : Memory N) (i k : Z) (l : list N) : Prop :=
  exists o ok, me_polynomials m i = Some o /\ ob_updated o = true /\ ob_coefficients_derivative o = l /\
    me_polynomials m k = Some ok /\ ob_coefficients ok = VDerivative i /\ i <> k.

Definition bounded (m : Memory N) : Prop := forall i, lives m i -> i < me_next m.

Lemma delete_same : forall m d m', @me_delete N m d = Ok m' -> me_polynomials m' = me_polynomials m /\ me_next m' = me_next m /\ me_vectors m' = me_vectors m.
Proof. intros m d m' E. destruct d; cbn in E; [destruct (me_derivatives m z); [|discriminate]|]; injection E as <-; auto. Qed.

Lemma shown_update : forall m i k l j m', bounded m -> shown m i k l -> me_update m j = Ok m' -> shown m' i k l /\ bounded m'.
Proof.
  intros m i k l j m' B (o & ok & P & U & L & PK & CK & NE) E. unfold me_update, me_get in E.
  destruct (me_polynomials m j) as [oj|] eqn:PJ; [|discriminate]. cbn [obind] in E. destruct (ob_updated oj) eqn:UJ.
  - injection E as <-. split; [exists o, ok; auto 8|exact B].
  - destruct (me_read m (ob_coefficients oj)) as [lj| |]; try discriminate. cbn [obind] in E.
    match type of E with (if ?c then _ else _) = _ => destruct c; [discriminate|] end. cbv zeta in E.
    destruct (me_delete m (ob_derivative oj)) as [m1| |] eqn:D; try discriminate. cbn [obind] in E. apply delete_same in D as (Q & X & V).
    injection E as <-. rewrite Q, X. split.
    + assert (JI : i <> j) by (intros <-; congruence). exists o. cbn [me_polynomials]. destruct (Z.eq_dec k j) as [->|KJ].
      * eexists. puts. split; [exact P|]. split; [exact U|]. split; [exact L|]. split; [reflexivity|]. cbn. split; [congruence|exact NE].
      * exists ok. puts. auto 8.
    + intros j0. unfold lives. cbn. destruct (Z.eq_dec j0 j) as [->|E']; puts; intros Y.
      * assert (j < me_next m) by (apply B; unfold lives; congruence). lia.
      * assert (j0 < me_next m) by (apply B; exact Y). lia.
Qed.

Lemma shown_create : forall m i k l o, bounded m -> shown m i k l -> shown (me_create m o) i k l /\ bounded (me_create m o).
Proof.
  intros m i k l o B (oi & ok & P & U & L & PK & CK & NE).
  assert (i < me_next m) by (apply B; unfold lives; congruence). assert (k < me_next m) by (apply B; unfold lives; congruence). split.
  - exists oi, ok. cbn. puts. auto 8.
  - intros j. unfold lives. cbn. destruct (Z.eq_dec j (me_next m)) as [->|E']; puts; intros Y; [lia|].
    assert (j < me_next m) by (apply B; exact Y). lia.
Qed.

Lemma shown_set : forall m i k l j x, bounded m -> shown m i k l -> j <> i -> j <> k -> lives m j -> shown (me_set m j x) i k l /\ bounded (me_set m j x).
Proof.
  intros m i k l j x B (oi & ok & P & U & L & PK & CK & NE) JI JK LJ. split.
  - exists oi, ok. cbn. puts. auto 8.
  - intros j0. unfold lives. cbn. destruct (Z.eq_dec j0 j) as [->|E']; puts; intros Y; apply B; assumption.
Qed.

Lemma shown_call : forall m i k l c m', bounded m -> shown m i k l -> leaves i c -> leaves k c -> heap_call m c = Ok m' -> shown m' i k l /\ bounded m'.
Proof.
  intros m i k l c m' B S LI LK E. destruct c; cbn [leaves heap_call] in *.
  - injection E as <-. split; [exact S|exact B].
  - injection E as <-. apply shown_create; assumption.
  - injection E as <-. apply shown_create; assumption.
  - unfold me_copy in E. destruct (me_get m i0); try discriminate. injection E as <-. apply shown_create; assumption.
  - unfold me_assign in E. destruct (me_get m j); try discriminate. cbn [obind] in E. destruct (me_get m i0) eqn:G; try discriminate. injection E as <-.
    apply shown_set; auto. unfold me_get in G. unfold lives. destruct (me_polynomials m i0); congruence.
  - unfold me_destroy in E. destruct (me_get m i0) eqn:G; try discriminate. cbn [obind] in E. destruct (me_delete m _) as [m1| |] eqn:D; try discriminate.
    injection E as <-. apply delete_same in D as (Q & X & V).
    assert (S1 : shown m1 i k l). { unfold shown in *. rewrite Q. exact S. }
    assert (B1 : bounded m1). { unfold bounded, lives in *. rewrite Q, X. exact B. }
    apply shown_set; auto. unfold me_get in G. unfold lives. rewrite Q. destruct (me_polynomials m i0); congruence.
  - unfold me_set_coefficients in E. destruct (me_get m i0) eqn:G; try discriminate. injection E as <-. apply shown_set; auto.
    unfold me_get in G. unfold lives. destruct (me_polynomials m i0); congruence.
  - destruct (me_Y m i0 x); try discriminate. injection E as <-. auto.
  - unfold me_Slope in E. destruct (me_update m i0) as [m1| |] eqn:U; try discriminate. cbn [obind] in E. destruct (me_slopes m1 i0); try discriminate.
    injection E as <-. eapply shown_update; eauto.
  - unfold me_X in E. destruct (me_update m i0) as [m1| |] eqn:U; cbn [obind] in E; try discriminate.
    assert (G := shown_update _ _ _ _ _ _ B S U).
    destruct (me_get m1 i0) as [o| |]; cbn [obind] in E; try discriminate; [|injection E as <-; exact G].
    destruct (me_read m1 _) as [[|c r]| |]; cbn [obind] in E; try discriminate; try (injection E as <-; exact G).
    destruct (me_slopes m1 i0); cbn [obind] in E; try discriminate; injection E as <-; exact G.
  - unfold me_Validate in E. destruct (me_get m i0) as [o| |]; try discriminate. cbn [obind] in E. destruct (ob_coefficients o); try discriminate.
    + injection E as <-. auto.
    + destruct (me_update m i0) as [m1| |] eqn:U; try discriminate. injection E as <-. eapply shown_update; eauto.
    + destruct (me_update m i0) as [m1| |] eqn:U; try discriminate. injection E as <-. eapply shown_update; eauto.
  - unfold me_Derivative in E. destruct (me_update m i0) as [m1| |] eqn:U; try discriminate. cbn [obind] in E.
    destruct (shown_update _ _ _ _ _ _ B S U) as (S1 & B1). destruct (me_get m1 i0) as [o| |]; try discriminate. cbn [obind] in E.
    destruct (ob_derivative o); try discriminate. destruct (me_derivatives m1 z); try discriminate. injection E as <-. apply shown_create; assumption.
Qed.

Lemma shown_run : forall (cs : list (HeapCall N)) m i k l m', bounded m -> shown m i k l -> Forall (leaves i) cs -> Forall (leaves k) cs -> heap_run m cs = Ok m' -> shown m' i k l.
Proof.
  induction cs as [|c cs IH]; intros m i k l m' B S LI LK E; [injection E as <-; exact S|].
  inversion LI; inversion LK; subst. cbn [heap_run] in E. destruct (heap_call m c) as [m1| |] eqn:F; try discriminate.
  destruct (shown_call m i k l c m1) as (S1 & B1); auto. eapply IH; eauto.
Qed.

Lemma derivative_shown : forall (cs : list (HeapCall N)) m i m1, heap_run Memory_empty cs = Ok m -> careful [] cs -> me_Derivative m i = Ok m1 ->
  let k := me_next m1 - 1 in
  forall cs' m2, heap_run m1 cs' = Ok m2 -> Forall (leaves i) cs' -> Forall (leaves k) cs' ->
  forall x, exists v m', me_Slope m i x = Ok (v, m') /\ me_Y m2 k x = Ok v.
Proof.
  intros cs m i m1 E C D k cs' m2 E2 LI LK x. destruct (owned_run cs [] _ m owned_empty C E) as (b & H).
  unfold me_Derivative in D. destruct (me_update m i) as [mu| |] eqn:U; try discriminate. cbn [obind] in D.
  destruct (owned_update b m i mu H U) as (G & LT & (o0 & o & P0 & P & PC & PU) & OT & VE).
  destruct (owned_slopes _ _ _ _ G P PU) as (S & d & DO & DD). unfold me_get in D. rewrite P in D. cbn [obind] in D. rewrite DO, DD in D. injection D as <-.
  exists (Y_list (ob_coefficients_derivative o) x), mu. split.
  - unfold me_Slope. rewrite U. cbn [obind]. rewrite S. reflexivity.
  - assert (K : k = me_next mu) by (unfold k; cbn; lia). rewrite K in *. clear k K.
    assert (B : bounded (me_create mu (mkObject (VDerivative i) [] None false))).
    { intros j. unfold lives. cbn. destruct (Z.eq_dec j (me_next mu)) as [->|E']; puts; intros Y; [lia|].
      destruct (me_polynomials mu j) as [oj|] eqn:PJ; [|contradiction]. apply (ow_p _ _ G) in PJ. lia. }
    assert (SH : shown (me_create mu (mkObject (VDerivative i) [] None false)) i (me_next mu) (ob_coefficients_derivative o)).
    { eexists o, _. cbn. puts. split; [exact P|]. split; [exact PU|]. split; [reflexivity|]. split; [reflexivity|]. split; [reflexivity|lia]. }
    destruct (shown_run cs' _ _ _ _ _ B SH LI LK E2) as (o2 & ok & Q1 & Q2 & Q3 & Q4 & Q5 & Q6).
    unfold me_Y, me_get. rewrite Q4. cbn [obind]. rewrite Q5. cbn [me_read]. unfold me_get. rewrite Q1. cbn [obind]. rewrite Q3. reflexivity.
Qed.
End Own.
