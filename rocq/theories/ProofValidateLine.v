(** Proofs about the validation of line cables and of the whole line. *)
From Coq Require Import ZArith Bool List String.
From Verif Require Import Num ModelBase ModelAlignment ModelLine ModelCable ModelCatenary ModelLoad ModelSagtension
  ModelValidate SpecValidate ProofValidate.
Import ListNotations.
Open Scope num_scope.
Open Scope list_scope.

Section Line.
Context {N : Num}.

(** The messages of a function that only writes messages. *)
Definition says (v : Messages -> outcome Messages) (r : outcome (list Message)) : Prop :=
  forall m, v m = match r with Ok e => Ok (with_more e m) | Throw => Throw | UB => UB end.

Lemma push_more : forall t d m, push t d m = with_more [mkMessage d t] m.
Proof. intros t d [l|]; reflexivity. Qed.

Lemma loop_says : forall (env : Env N) cs first, exists r, says (Connections_loop env first cs) r /\
  omap (fun _ => tt) r = ValidateConnections_loop env cs.
Proof.
  intros env cs. induction cs as [|c cs IH]; intros first.
  - exists (Ok []). split; auto. intros m. rewrite more_nil. auto.
  - cbn [Connections_loop ValidateConnections_loop].
    destruct (deref env (cn_line_structure c)) as [s| |]; [|exists Throw; split; [intros m|]; auto|exists UB; split; [intros m|]; auto].
    cbn [obind].
    destruct (vec_at (ls_hardwares s) (cn_index_attachment c)) as [h| |];
      [|exists Throw; split; [intros m|]; auto|exists UB; split; [intros m|]; auto].
    cbn [obind]. destruct h as [h|]; [|exists UB; split; [intros m|]; auto].
    destruct (IH false) as (r & A & B).
    set (terminal := first || match cs with [] => true | _ => false end).
    exists (omap (app (match terminal, hw_type h with
             | true, DeadEnd => []
             | true, _ => [mkMessage "Terminal line cable connection does not have dead-end type hardware" "LINE CABLE"]
             | false, Suspension => []
             | false, _ => [mkMessage "Interior line cable connection does not have suspension type hardware" "LINE CABLE"]
             end)) r).
    split; [|rewrite <- B; destruct r; reflexivity].
    intros m. rewrite A. destruct r; cbn [omap]; auto.
    destruct terminal, (hw_type h); rewrite ?push_more, ?more_more; reflexivity.
Qed.

Lemma Connections_answers : forall (env : Env N) cs, exists r, answers_or_fails (Connections_report env cs) r /\
  omap fst r = ValidateConnections env cs.
Proof.
  intros env cs. unfold Connections_report, ValidateConnections. destruct (Nat.ltb (List.length cs) 2).
  - exists (Ok (false, [mkMessage "Not enough connections" "LINE CABLE"])). split; auto. intros m. rewrite push_more. auto.
  - destruct (loop_says env cs true) as (r & A & B). exists (omap (pair true) r). split.
    + intros m. rewrite A. destruct r; reflexivity.
    + rewrite <- B. destruct r; reflexivity.
Qed.

Lemma LineCable_answers : forall (env : Env N) (l : Strung N), exists r, answers_or_fails (LineCable_report env l) r /\
  omap fst r = Strung_Validate env l /\ (forall e, r = Ok (false, e) -> e <> []).
Proof.
  intros env l. unfold LineCable_report, Strung_Validate. cbn zeta.
  destruct (Stringing_good (lc_payload l)) as (e0 & A & B).
  destruct (Stringing_inputs_valid (lc_payload l)).
  - destruct (CatenaryRulingSpan (lc_payload l)) as [k| |];
      [|exists Throw; split; [intros m; rewrite A; auto|split; [auto|discriminate]]
       |exists UB; split; [intros m; rewrite A; auto|split; [auto|discriminate]]].
    destruct (Catenary3d_good k) as (e1 & C & D).
    destruct (Connections_answers env (lc_connections l)) as (r & E & Er).
    exists (match r with Ok (_, e2) => Ok (c3_Validate k, (e0 ++ e1) ++ e2) | Throw => Throw | UB => UB end).
    split; [|split].
    + intros m. rewrite !(A m). cbn [fst negb obind]. rewrite !(adds_part _ _ _ C _). cbn [fst snd]. rewrite E.
      destruct r as [[b e2]| |]; cbn [obind fst snd andb]; auto. rewrite !more_more, <- ?app_assoc. auto.
    + cbn [obind]. rewrite <- Er. destruct r as [[b e2]| |]; reflexivity.
    + intros e H. destruct r as [[b e2]| |]; inversion H; subst.
      apply app_not_nil. left. apply app_not_nil. right. apply D. auto.
  - exists (Ok (false, e0)). split; [|split]; auto.
    + intros m. rewrite !(A m). auto.
    + intros e H. inversion H; subst. apply B. auto.
Qed.

Lemma Cables_answers : forall (env : Env N) (ls : list (Strung N)), exists r : outcome (bool * list Message),
  (forall c, LineCables_loop env ls c = match r with Ok (ok, e) => Ok (fst c && ok, with_more e (snd c)) | Throw => Throw | UB => UB end) /\
  (forall e, r = Ok (false, e) -> e <> []) /\
  (forall ok e, r = Ok (ok, e) -> forall l, In l ls -> exists b, Strung_Validate env l = Ok b /\ (ok = true -> b = true)).
Proof.
  intros env ls. induction ls as [|l ls IH].
  - exists (Ok (true, [])). split; [|split].
    + intros [b m]. cbn. rewrite andb_true_r, more_nil. auto.
    + discriminate.
    + intros ok e _ l [].
  - destruct (LineCable_answers env l) as (r1 & A & B & C). destruct IH as (r2 & D & E & G).
    exists (match r1, r2 with
            | Ok (o1, e1), Ok (o2, e2) => Ok (o1 && o2, e1 ++ e2)
            | Ok _, x => x
            | Throw, _ => Throw
            | UB, _ => UB
            end).
    split; [|split].
    + intros [b m]. cbn [LineCables_loop snd]. rewrite A. destruct r1 as [[o1 e1]| |]; cbn [obind]; auto.
      rewrite D. destruct r2 as [[o2 e2]| |]; auto. cbn [fst snd]. rewrite more_more. f_equal. f_equal.
      destruct o1, b; reflexivity.
    + intros e H. destruct r1 as [[o1 e1]| |]; try discriminate. destruct r2 as [[o2 e2]| |]; try discriminate.
      inversion H; subst. apply app_not_nil. apply andb_false_iff in H1 as [-> | ->]; [left; apply C|right; apply E]; auto.
    + intros ok e H l' K. destruct r1 as [[o1 e1]| |]; try discriminate. destruct r2 as [[o2 e2]| |]; try discriminate.
      inversion H; subst. destruct K as [<-|K].
      * exists o1. rewrite <- B. split; auto. intros Ho. apply andb_true_iff in Ho. apply Ho.
      * destruct (G o2 e2 eq_refl l' K) as (b & G1 & G2). exists b. split; auto. intros Ho.
        apply andb_true_iff in Ho. apply G2, Ho.
Qed.

Lemma Parts_answers : forall l : Line N (Stringing N), exists r, answers_or_fails (Line_parts l) r /\
  (forall e, r = Ok (false, e) -> e <> []) /\
  (forall ok e, r = Ok (ok, e) ->
     (ok = true -> Alignment_Validate (tl_alignment l) = true) /\
     (forall n, In n (tl_line_structures l) -> ok = true -> line_structure_ok (snd n) = true) /\
     (forall c, In c (tl_line_cables l) -> exists b, Strung_Validate (tl_line_structures l) c = Ok b /\ (ok = true -> b = true))).
Proof.
  intros l. unfold Line_parts. cbn zeta.
  assert (G : good false (fun m => each (fun s => part (LineStructure_Validate (snd s))) (tl_line_structures l)
                 (part (Alignment_report (tl_alignment l)) (true, m)))
      (true && Alignment_Validate (tl_alignment l) && forallb (fun s => line_structure_ok (snd s)) (tl_line_structures l))).
  { apply good_each; [|intros s; apply step_part, LineStructure_good].
    apply good_part; [apply good_start|]. eapply good_loud. apply Alignment_good. }
  destruct G as (e1 & A & B & _). cbn [andb] in A, B.
  set (o1 := Alignment_Validate _ && _) in *.
  destruct (Cables_answers (tl_line_structures l) (tl_line_cables l)) as (r & C & D & E).
  exists (match r with Ok (o2, e2) => Ok (o1 && o2, e1 ++ e2) | x => x end). split; [|split].
  - intros m. rewrite C. specialize (A m). cbn beta in A. rewrite A. destruct r as [[o2 e2]| |]; auto. cbn [fst snd]. rewrite more_more. auto.
  - intros e H. destruct r as [[o2 e2]| |]; inversion H; subst. apply app_not_nil.
    apply andb_false_iff in H1 as [H1|H1]; [left; auto|right; subst; auto].
  - intros ok e H. destruct r as [[o2 e2]| |]; inversion H; subst.
    assert (K : o1 && o2 = true -> o1 = true /\ o2 = true) by (intros K; apply andb_true_iff in K; auto).
    unfold o1 in K. split; [|split].
    + intros Ho. apply K in Ho as [Ho _]. apply andb_true_iff in Ho. apply Ho.
    + intros n Hn Ho. apply K in Ho as [Ho _]. apply andb_true_iff in Ho as [_ Ho]. rewrite forallb_forall in Ho. auto.
    + intros c Hc. destruct (E o2 e2 eq_refl c Hc) as (b & E1 & E2). exists b. split; auto. intros Ho. apply E2, K, Ho.
Qed.

Lemma Update_true : forall P (l : Line N P), snd (Update l) <> Ok false.
Proof.
  intros P l. unfold Update. cbn zeta.
  match goal with |- context [if tl_is_updated_structures ?x then _ else _] => destruct (tl_is_updated_structures x) end; [discriminate|].
  destruct (UpdatePointsXyzLineStructures_loop _ _ _) as [ps [| |]]; discriminate.
Qed.

(** The answers of the validation of the line, which also refreshes the coordinates. *)
Lemma Line_answers : forall l : Line N (Stringing N), exists r parts,
  (forall m, Line_report l m = (fst (Line_Validate l parts), match r with Ok (ok, e) => Ok (ok, with_more e m) | Throw => Throw | UB => UB end)) /\
  snd (Line_Validate l parts) = omap fst r /\
  (forall e, r = Ok (false, e) -> e <> []) /\
  (forall ok e, r = Ok (ok, e) -> parts = Ok ok /\
     (ok = true -> Alignment_Validate (tl_alignment l) = true) /\
     (forall n, In n (tl_line_structures l) -> ok = true -> line_structure_ok (snd n) = true) /\
     (forall c, In c (tl_line_cables l) -> exists b, Strung_Validate (tl_line_structures l) c = Ok b /\ (ok = true -> b = true))).
Proof.
  intros l. destruct (Parts_answers l) as (r & A & B & C). assert (U := Update_true _ l).
  unfold Line_report, Line_Validate.
  exists (match r, snd (Update l) with Ok c, Ok _ => Ok c | Ok _, Throw => Throw | Ok _, UB => UB | x, _ => x end), (omap fst r).
  destruct r as [[ok e]| |]; cbn [omap fst].
  - destruct (Update l) as [l1 [u| |]] eqn:E; cbn [fst snd].
    + destruct u; [|exfalso; apply U; reflexivity]. split; [|split; [|split]].
      * intros m. rewrite A. unfold test. reflexivity.
      * cbn. destruct ok; reflexivity.
      * intros e' H. apply B. auto.
      * intros ok' e' H. inversion H; subst. split; auto. eapply C; eauto.
    + split; [|split; [auto|split; discriminate]]. intros m. rewrite A. auto.
    + split; [|split; [auto|split; discriminate]]. intros m. rewrite A. auto.
  - split; [|split; [auto|split; discriminate]]. intros m. rewrite A. auto.
  - split; [|split; [auto|split; discriminate]]. intros m. rewrite A. auto.
Qed.
End Line.
