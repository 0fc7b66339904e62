(** Laws of messages that pass from the steps of a Validate function to the function. *)
From Coq Require Import ZArith Bool List String.
From Verif Require Import Num ModelValidate SpecValidate ModelReport SpecReport ProofValidate ProofValidateLine.
Import ListNotations.
Open Scope list_scope.

(** A law of the answers that is kept by tests with a description and by sequences. *)
Record Law (P : bool -> list Message -> Prop) : Prop := mkLaw {
  law_nil : P true [];
  law_said : forall t d, t <> ""%string -> d <> ""%string -> P false [mkMessage d t];
  law_app : forall o1 e1 o2 e2, P o1 e1 -> P o2 e2 -> P (o1 && o2) (e1 ++ e2)
}.

(** A law that is kept when the result of a part is dropped. *)
Definition Drops (P : bool -> list Message -> Prop) : Prop := forall o e, P o e -> P true e.
(** A law that is kept by messages without a description. *)
Definition Blanks (P : bool -> list Message -> Prop) : Prop := forall t, P false [mkMessage ""%string t].

Lemma law_any : Law (fun _ _ => True).
Proof. split; auto. Qed.
Lemma drops_any : Drops (fun _ _ => True).
Proof. intros o e _. exact I. Qed.
Lemma blanks_any : Blanks (fun _ _ => True).
Proof. intros t. exact I. Qed.

Lemma law_explained : Law rejections_explained.
Proof.
  split; unfold rejections_explained; try discriminate; try congruence.
  intros o1 e1 o2 e2 A B H. apply app_not_nil. apply andb_false_iff in H as [H|H]; auto.
Qed.
Lemma drops_explained : Drops rejections_explained.
Proof. intros o e _. discriminate. Qed.
Lemma blanks_explained : Blanks rejections_explained.
Proof. intros t _. discriminate. Qed.

Lemma law_quiet : Law messages_are_rejections.
Proof.
  split; unfold messages_are_rejections; try congruence.
  intros o1 e1 o2 e2 A B H. apply app_not_nil in H as [H|H]; [rewrite A|rewrite B]; auto. apply andb_false_r.
Qed.

Lemma law_worded : Law worded.
Proof.
  split; unfold worded.
  - intros x [].
  - intros t d A B x [<-|[]]. auto.
  - intros o1 e1 o2 e2 A B x H. apply in_app_or in H as [H|H]; auto.
Qed.
Lemma drops_worded : Drops worded.
Proof. intros o e H. exact H. Qed.

Section Steps.
Variable P : bool -> list Message -> Prop.
Hypothesis law : Law P.

(** The answer of a function that cannot fail. *)
Definition fine (v : Messages -> Check) (ok : bool) : Prop := exists e, answers v ok e /\ P ok e.
(** One step of a function. *)
Definition fstep (f : Check -> Check) (ok : bool) : Prop := exists e, adds f ok e /\ P ok e.

Lemma P_and : forall o e, P o e -> P (true && o) e.
Proof. auto. Qed.

Lemma fine_eq : forall v o1 o2, fine v o1 -> o1 = o2 -> fine v o2.
Proof. intros; subst; auto. Qed.

Lemma fine_start : fine (fun m => (true, m)) true.
Proof. exists []. split; [intros m; rewrite more_nil; auto|apply law]. Qed.

Lemma fine_step : forall f v o1 o2, fine v o1 -> fstep f o2 -> fine (fun m => f (v m)) (o1 && o2).
Proof.
  intros f v o1 o2 (e1 & A & B) (e2 & C & D). exists (e1 ++ e2). split; [|apply (law_app P law); auto].
  intros m. rewrite C, (A m). cbn [fst snd]. rewrite more_more. auto.
Qed.

Lemma fstep_test : forall t b d, t <> ""%string -> d <> ""%string -> fstep (test t b d) (negb b).
Proof.
  intros t b d T D. exists (said t d b). split; [apply adds_test|]. destruct b; [apply (law_said P law)|apply (law_nil P law)]; auto.
Qed.

Lemma fstep_id : fstep (fun c => c) true.
Proof. exists []. split; [apply adds_id|apply law]. Qed.

Lemma fstep_part : forall w o, fine w o -> fstep (part w) o.
Proof. intros w o (e & A & B). exists e. split; [apply adds_part|]; auto. Qed.

Lemma fstep_dropped : forall w o, Drops P -> fine w o -> fstep (dropped w) true.
Proof. intros w o K (e & A & B). exists e. split; [eapply adds_dropped; eauto|eapply K; eauto]. Qed.

Lemma fstep_then : forall f g o1 o2, fstep f o1 -> fstep g o2 -> fstep (fun c => g (f c)) (o1 && o2).
Proof. intros f g o1 o2 (e1 & A & B) (e2 & C & D). exists (e1 ++ e2). split; [apply adds_then|apply (law_app P law)]; auto. Qed.

Lemma fstep_each : forall A (f : A -> Check -> Check) okf l, (forall a, In a l -> fstep (f a) (okf a)) -> fstep (each f l) (forallb okf l).
Proof.
  intros A f okf l. induction l as [|a l IH]; intros H; [apply fstep_id|].
  cbn [forallb]. apply (fstep_then (f a) (each f l)); [apply H; simpl; auto|apply IH]. intros b Hb. apply H. simpl; auto.
Qed.

Lemma fine_test : forall v o t b d, fine v o -> t <> ""%string -> d <> ""%string -> fine (fun m => test t b d (v m)) (o && negb b).
Proof. intros. apply (fine_step (test t b d)); auto. apply fstep_test; auto. Qed.

Lemma fine_part : forall v w o1 o2, fine v o1 -> fine w o2 -> fine (fun m => part w (v m)) (o1 && o2).
Proof. intros. apply (fine_step (part w)); auto. apply fstep_part; auto. Qed.

Lemma fine_silent : forall v w o1, fine v o1 -> (forall m, w m = (true, m)) -> fine (fun m => dropped w (v m)) (o1 && true).
Proof.
  intros v w o1 H E. apply (fine_step (dropped w)); auto. exists []. split; [|apply law].
  intros [b m]. unfold dropped. rewrite E. cbn [fst snd]. rewrite more_nil, andb_true_r. auto.
Qed.

Lemma fine_pointed : forall A t d (p : option A) w okw v o, fine v o -> (forall a, fine (w a) (okw a)) -> t <> ""%string -> d <> ""%string ->
  fine (fun m => pointed t d p w (v m)) (o && match p with Some a => okw a | None => false end).
Proof.
  intros A t d [a|] w okw v o H K T D; unfold pointed.
  - apply fine_part; auto.
  - exact (fine_test v o t true d H T D).
Qed.

Lemma fine_early : forall v w o1 o2, fine v o1 -> fine w o2 ->
  fine (fun m => let c := v m in if negb (fst c) then c else part w c) (o1 && o2).
Proof.
  intros v w o1 o2 (e1 & A & B) (e2 & C & D).
  exists (if o1 then e1 ++ e2 else e1). split.
  - replace (o1 && o2) with (if o1 then o2 else false) by (destruct o1; auto). apply answers_early; auto.
  - destruct o1; [apply (law_app P law)|]; auto.
Qed.

(** ** Functions that may fail or change an object *)

Definition ofine (v : Messages -> outcome Check) (r : outcome bool) : Prop :=
  match r with
  | Ok ok => exists e, (forall m, v m = Ok (ok, with_more e m)) /\ P ok e
  | Throw => forall m, v m = Throw
  | UB => forall m, v m = UB
  end.
Definition sfine {S : Type} (v : Messages -> outcome (Check * S)) (r : outcome (bool * S)) : Prop :=
  match r with
  | Ok (ok, s) => exists e, (forall m, v m = Ok ((ok, with_more e m), s)) /\ P ok e
  | Throw => forall m, v m = Throw
  | UB => forall m, v m = UB
  end.

Lemma ofine_eq : forall v r1 r2, ofine v r1 -> r1 = r2 -> ofine v r2.
Proof. intros; subst; auto. Qed.
Lemma sfine_eq : forall S (v : Messages -> outcome (Check * S)) r1 r2, sfine v r1 -> r1 = r2 -> sfine v r2.
Proof. intros; subst; auto. Qed.

Lemma ofine_ok : forall v o, fine v o -> ofine (fun m => Ok (v m)) (Ok o).
Proof. intros v o (e & A & B). exists e. split; auto. intros m. rewrite A. auto. Qed.
Lemma sfine_ok : forall S v o (s : S), fine v o -> sfine (fun m => Ok (v m, s)) (Ok (o, s)).
Proof. intros S v o s (e & A & B). exists e. split; auto. intros m. rewrite A. auto. Qed.

Lemma ofine_value : forall A (a : outcome A) (k : A -> Messages -> outcome Check) r,
  (forall x, a = Ok x -> ofine (k x) (r x)) -> ofine (fun m => obind a (fun x => k x m)) (obind a r).
Proof. intros A [x| |] k r H; cbn [obind]; [apply H; auto|..]; intros m; auto. Qed.
Lemma sfine_value : forall S A (a : outcome A) (k : A -> Messages -> outcome (Check * S)) r,
  (forall x, a = Ok x -> sfine (k x) (r x)) -> sfine (fun m => obind a (fun x => k x m)) (obind a r).
Proof. intros S A [x| |] k r H; cbn [obind]; [apply H; auto|..]; intros m; auto. Qed.

(** A part that may fail, after a check. *)
Lemma ofine_part : forall w v o r, fine v o -> ofine w r -> ofine (fun m => opart_only w (v m)) (omap (andb o) r).
Proof.
  intros w v o r (e1 & A & B) H. unfold opart_only. destruct r as [b| |]; cbn [omap obind].
  - destruct H as (e2 & C & D). exists (e1 ++ e2). split; [|apply (law_app P law); auto].
    intros m. rewrite (A m). cbn [fst snd]. rewrite C. cbn [obind fst snd]. rewrite more_more. destruct b, o; auto.
  - intros m. rewrite (A m). cbn [snd]. rewrite H. auto.
  - intros m. rewrite (A m). cbn [snd]. rewrite H. auto.
Qed.
Lemma sfine_part : forall S (w : Messages -> outcome (Check * S)) v o r, fine v o -> sfine w r ->
  sfine (fun m => opart w (v m)) (omap (fun x => (o && fst x, snd x)) r).
Proof.
  intros S w v o r (e1 & A & B) H. unfold opart. destruct r as [[b s]| |]; cbn [omap obind fst snd].
  - destruct H as (e2 & C & D). exists (e1 ++ e2). split; [|apply (law_app P law); auto].
    intros m. rewrite (A m). cbn [fst snd]. rewrite C. cbn [obind fst snd]. rewrite more_more. destruct b, o; auto.
  - intros m. rewrite (A m). cbn [snd]. rewrite H. auto.
  - intros m. rewrite (A m). cbn [snd]. rewrite H. auto.
Qed.

(** What follows a part. *)
Lemma ofine_bind : forall v r (k : Check -> outcome Check) rr, ofine v r ->
  (forall b c, r = Ok b -> fine c b -> ofine (fun m => k (c m)) (rr b)) -> ofine (fun m => obind (v m) k) (obind r rr).
Proof.
  intros v [b| |] k rr H K; cbn [obind].
  - destruct H as (e & A & B). specialize (K b (fun m => (b, with_more e m)) eq_refl (ex_intro _ e (conj (fun m => eq_refl) B))).
    destruct (rr b) as [b'| |].
    + destruct K as (e' & C & D). exists e'. split; auto. intros m. rewrite A. apply C.
    + intros m. rewrite A. apply K.
    + intros m. rewrite A. apply K.
  - intros m. rewrite H. auto.
  - intros m. rewrite H. auto.
Qed.
Lemma osfine_bind : forall S v r (k : Check -> outcome (Check * S)) rr, ofine v r ->
  (forall b c, r = Ok b -> fine c b -> sfine (fun m => k (c m)) (rr b)) -> sfine (fun m => obind (v m) k) (obind r rr).
Proof.
  intros S v [b| |] k rr H K; cbn [obind].
  - destruct H as (e & A & B). specialize (K b (fun m => (b, with_more e m)) eq_refl (ex_intro _ e (conj (fun m => eq_refl) B))).
    destruct (rr b) as [[b' s]| |].
    + destruct K as (e' & C & D). exists e'. split; auto. intros m. rewrite A. apply C.
    + intros m. rewrite A. apply K.
    + intros m. rewrite A. apply K.
  - intros m. rewrite H. auto.
  - intros m. rewrite H. auto.
Qed.
Lemma sfine_bind : forall S T v r (k : Check -> S -> outcome (Check * T)) rr, sfine v r ->
  (forall b s c, r = Ok (b, s) -> fine c b -> sfine (fun m => k (c m) s) (rr b s)) ->
  sfine (fun m => obind (v m) (fun '(c, s) => k c s)) (obind r (fun '(b, s) => rr b s)).
Proof.
  intros S T v [[b s]| |] k rr H K; cbn [obind].
  - destruct H as (e & A & B). specialize (K b s (fun m => (b, with_more e m)) eq_refl (ex_intro _ e (conj (fun m => eq_refl) B))).
    destruct (rr b s) as [[b' s']| |].
    + destruct K as (e' & C & D). exists e'. split; auto. intros m. rewrite A. apply C.
    + intros m. rewrite A. apply K.
    + intros m. rewrite A. apply K.
  - intros m. rewrite H. auto.
  - intros m. rewrite H. auto.
Qed.

(** An early return. *)
Lemma sfine_early : forall S v o (s : S) k r, fine v o -> (o = true -> sfine (fun m => k (v m)) r) ->
  sfine (fun m => if negb (fst (v m)) then Ok (v m, s) else k (v m)) (if o then r else Ok (false, s)).
Proof.
  intros S v o s k r (e & A & B) K. assert (E : forall m, fst (v m) = o) by (intros m; rewrite A; auto).
  destruct o.
  - specialize (K eq_refl). destruct r as [[b s']| |].
    + destruct K as (e' & C & D). exists e'. split; auto. intros m. rewrite E. apply C.
    + intros m. rewrite E. apply K.
    + intros m. rewrite E. apply K.
  - exists e. split; auto. intros m. rewrite E, A. auto.
Qed.
End Steps.
