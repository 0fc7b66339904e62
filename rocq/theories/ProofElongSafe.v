(** Proof that no call on a prepared elongation model is undefined, in real arithmetic. *)
From Coq Require Import ZArith Bool List Reals Lra Lia.
From Verif Require Import Num NumFacts ModelBase ModelCable ModelPolynomial ModelThermal ModelElongation SpecElong ProofReal
  ProofPolynomial ProofThermalCases.
Import ListNotations.

(** A call that returns, with [Q] of the result. *)
Definition ok_with {A : Type} (Q : A -> Prop) (o : outcome A) : Prop :=
  match o with Ok a => Q a | _ => False end.

Lemma ok_bind : forall (A B : Type) (Q : A -> Prop) (P : B -> Prop) o f,
  ok_with Q o -> (forall a, Q a -> ok_with P (f a)) -> ok_with P (obind o f).
Proof. intros A B Q P [a| |] f H G; cbn in *; auto. Qed.

Lemma ok_mono : forall (A : Type) (Q P : A -> Prop) o, ok_with Q o -> (forall a, Q a -> P a) -> ok_with P o.
Proof. intros A Q P [a| |] H G; cbn in *; auto. Qed.

Section Component.
Context {N : Num}.
Implicit Types c : CompModel N.

Definition filled (b : CableComponent N) : Prop := cc_creep b <> [] /\ cc_loadstrain b <> [].

(** A component model with a component and a reference temperature. *)
Definition csafe c : Prop :=
  (exists b, cm_base c = Ok b /\ filled b) /\ cm_tref c <> None /\ (cm_upd_state c = true -> cm_points c <> None).
(** The same with a state and a stretch state. *)
Definition cready c : Prop :=
  csafe c /\ (exists s, cm_state c = Some s /\ st_type s <> PTNull) /\ cm_stretch c <> None.

Lemma poly_X_ok : forall (l : list N) y, l <> [] -> ok_with (fun _ => True) (poly_X l y).
Proof.
  intros [|c r] y H; [contradiction|]. unfold poly_X.
  destruct (run_new_X (fun _ => c :: r) (CAddr 0%Z) [] (Polynomial_new (CAddr 0%Z)) 0%Z c r y 2%Z (flit 1 (-1))
              eq_refl eq_refl eq_refl) as (p & E).
  rewrite E. exact I.
Qed.

Lemma StrainPolynomial_ok : forall (b : CableComponent N) l th y, l <> [] ->
  ok_with (fun _ => True) (StrainPolynomial b l th y).
Proof.
  intros b l th y H. unfold StrainPolynomial. eapply ok_bind; [apply poly_X_ok; exact H|]. intros x _. exact I.
Qed.

Lemma PointsRegions_ok : forall (b : CableComponent N) tref l t lim y, l <> [] ->
  ok_with (fun _ => True) (PointsRegions b tref l t lim y).
Proof.
  intros b tref l t lim y H. unfold PointsRegions.
  eapply ok_bind; [apply StrainPolynomial_ok; exact H|]. intros xe _.
  eapply ok_bind; [apply StrainPolynomial_ok; exact H|]. intros xs _. exact I.
Qed.

Lemma StrainAt_ok : forall (b : CableComponent N) mc ml t r th y, filled b ->
  ok_with (fun _ => True) (StrainAt b mc ml t r th y).
Proof.
  intros b mc ml t r th y (H1 & H2). unfold StrainAt.
  repeat match goal with |- context [if ?q then _ else _] => destruct q end; try exact I;
    destruct t; try exact I; apply StrainPolynomial_ok; assumption.
Qed.

Lemma deref_ok : forall (A : Type) (o : option A), o <> None -> ok_with (fun a => o = Some a) (deref o).
Proof. intros A [a|] H; [reflexivity|contradiction]. Qed.

Lemma UpdateStretch_ok : forall c, cready c ->
  ok_with (fun p => exists th l, snd p = with_stretch c th l) (UpdateStretch c).
Proof.
  intros c (((b & B & Fb) & T & _) & (s & S & Ty) & Z). unfold UpdateStretch. rewrite B. cbn [obind].
  eapply ok_bind; [apply (deref_ok _ _ T)|]. intros t Ht. eapply ok_bind; [apply (deref_ok _ _ Z)|]. intros ss Hs.
  cbn beta. destruct (ss_load ss =? #0)%num; [cbn; eauto|]. rewrite S. cbn [deref obind].
  destruct (ptype_eqb (st_type s) (ss_type ss)); [cbn; eauto|].
  eapply ok_bind; [apply PointsRegions_ok; apply Fb|]. intros pc _.
  eapply ok_bind; [apply PointsRegions_ok; apply Fb|]. intros pl _.
  assert (G : forall pf pt : Regions N,
    ok_with (fun p => exists th l, snd p = with_stretch c th l)
      (do xs <- StrainAt b (cm_mod_creep c) (cm_mod_loadstrain c) (ss_type ss) pf (StrainThermal b t (ss_temperature ss)) (ss_load ss);
       let ps := mkPoint2d xs (ss_load ss) in
       let from x := LoadLinearExtension ps (cc_modulus_tension b) x in
       let to x := LoadAt b (cm_mod_creep c) (cm_mod_loadstrain c) (st_type s) pt (StrainThermal b t (ss_temperature ss)) x in
       let lo := mkPoint2d xs (to xs - from xs)%num in
       let xr := (xs + flit 1 (-3))%num in
       let hi := mkPoint2d xr (to xr - from xr)%num in
       let '(iter, load_to) := stretch_loop 101 0 from to lo hi Point2d_default (to xr) in
       if (iter <? 100)%Z then Ok (true, with_stretch c (StrainThermal b t (ss_temperature ss)) load_to)
       else Ok (false, with_stretch c (StrainThermal b t (ss_temperature ss)) ferr))).
  { intros pf pt. eapply ok_bind; [apply StrainAt_ok; exact Fb|]. intros xs _.
    cbv zeta.
    match goal with |- context [stretch_loop ?a ?b ?c ?d ?e ?f ?g ?h] => destruct (stretch_loop a b c d e f g h) as (it, lt) end.
    destruct (it <? 100)%Z; cbn; eauto. }
  destruct (ss_type ss), (st_type s); cbn [snd]; try (cbn; eauto; fail); apply G.
Qed.

(** What an update keeps. *)
Lemma ready_with_stretch : forall c th l x y, cready c -> (x = true -> cm_points c <> None) ->
  cready (with_flags (with_stretch c th l) x y).
Proof. intros c th l x y ((B & T & P) & S & Z) H. split; [split; [exact B|split; [exact T|exact H]]|split; [exact S|exact Z]]. Qed.

Lemma UpdateState_ok : forall c, cready c ->
  ok_with (fun p => cready p /\ cm_points p <> None) (UpdateState c).
Proof.
  intros c (((b & B & Fb) & T & P) & (s & S & Ty) & Z). unfold UpdateState. rewrite S. cbn [deref obind]. rewrite B. cbn [obind].
  eapply ok_bind; [apply (deref_ok _ _ T)|]. intros t Ht.
  assert (L : ok_with (fun _ => True) (limit_of b (st_type s))). { destruct (st_type s); [contradiction|exact I|exact I]. }
  eapply ok_bind; [exact L|]. intros lim _.
  eapply ok_bind; [apply PointsRegions_ok; destruct (st_type s); apply Fb|]. intros r _. cbn [ok_with].
  split; [|cbn; discriminate]. split; [split; [exists b; split; [exact B|exact Fb]|split; [cbn; congruence|cbn; discriminate]]|].
  split; [exists s; split; [reflexivity|exact Ty]|exact Z].
Qed.

Lemma Update_ok : forall c, cready c ->
  ok_with (fun p => cready (snd p) /\ (fst p = true -> cm_upd_state (snd p) = true)) (cm_Update c).
Proof.
  intros c R. unfold cm_Update.
  apply (ok_bind _ _ (fun p => cready (snd p) /\ (fst p = true -> True))).
  - destruct (cm_upd_stretch c); [cbn; auto|].
    eapply ok_bind; [apply UpdateStretch_ok; exact R|]. intros (ok, p) (th & l & E). cbn [snd] in E. subst p. cbn [ok_with fst snd].
    split; [|auto]. apply ready_with_stretch; [exact R|]. cbn. apply R.
  - intros (ok, p) (Rp & _). cbn [snd] in Rp. destruct ok; [|cbn; split; [exact Rp|discriminate]].
    destruct (cm_upd_state p) eqn:U; [cbn; auto|].
    eapply ok_bind; [apply UpdateState_ok; exact Rp|]. intros q (Rq & Pq). cbn [ok_with fst snd].
    split; [|reflexivity]. destruct Rq as ((Bq & Tq & _) & Sq & Zq).
    split; [split; [exact Bq|split; [exact Tq|intros _; exact Pq]]|split; [exact Sq|exact Zq]].
Qed.

Lemma query_ok : forall c f, cready c ->
  (forall b t r n, filled b -> ok_with (fun _ => True) (f b t r n)) ->
  ok_with (fun p => cready (snd p)) (cm_query c f).
Proof.
  intros c f R H. unfold cm_query. eapply ok_bind; [apply Update_ok; exact R|]. intros (ok, p) (Rp & U). cbn [fst snd] in *.
  destruct ok; [|exact Rp]. specialize (U eq_refl). pose proof Rp as (((b & B & Fb) & T & P) & (s & S & Ty) & Z).
  rewrite S. cbn [deref obind]. rewrite B. cbn [obind]. destruct (cm_points p) as [r|] eqn:Q; [|exfalso; apply (P U); reflexivity].
  eapply ok_bind; [apply H; exact Fb|]. intros v _. exact Rp.
Qed.

Lemma Load_ok : forall c e, cready c -> ok_with (fun p => cready (snd p)) (cm_Load c e).
Proof. intros c e R. apply query_ok; [exact R|]. intros. exact I. Qed.
Lemma Slope_ok : forall c e, cready c -> ok_with (fun p => cready (snd p)) (cm_Slope c e).
Proof. intros c e R. apply query_ok; [exact R|]. intros. exact I. Qed.
Lemma Strain_ok : forall c y, cready c -> ok_with (fun p => cready (snd p)) (cm_Strain c y).
Proof. intros c y R. apply query_ok; [exact R|]. intros. apply StrainAt_ok. assumption. Qed.

Lemma Points_ok : forall c, cready c ->
  ok_with (fun p => cready (snd p) /\ exists x l, fst p = x :: l) (cm_PointsRegions c).
Proof.
  intros c R. unfold cm_PointsRegions. eapply ok_bind; [apply Update_ok; exact R|]. intros (ok, p) (Rp & U). cbn [fst snd] in *.
  destruct ok; [|cbn; eauto]. destruct (cm_points p) as [r|] eqn:Q; [cbn; eauto|].
  exfalso. apply (proj2 (proj2 (proj1 Rp)) (U eq_refl)). exact Q.
Qed.

Lemma shape_ok : forall (b : CableComponent N) l lim, l <> [] -> ok_with (fun _ => True) (shape_valid b l lim).
Proof.
  intros b l lim H. unfold shape_valid. eapply ok_bind; [apply StrainPolynomial_ok; exact H|]. intros x _. exact I.
Qed.
Lemma origin_ok : forall (b : CableComponent N) l, l <> [] -> ok_with (fun _ => True) (origin_valid b l).
Proof.
  intros b l H. unfold origin_valid. eapply ok_bind; [apply StrainPolynomial_ok; exact H|]. intros x _. exact I.
Qed.

Lemma Validate_ok : forall w c, cready c -> ok_with (fun p => cready (snd p)) (cm_Validate w c).
Proof.
  intros w c R. unfold cm_Validate. destruct (cm_inputs_valid c); [|exact R].
  eapply ok_bind; [apply Update_ok; exact R|]. intros (ok, p) (Rp & U). cbn [fst snd] in *.
  destruct ok; [|exact Rp]. pose proof Rp as (((b & B & (F1 & F2)) & _) & _). rewrite B. cbn [obind].
  apply (ok_bind _ _ (fun _ => True)); [|intros x _; exact Rp]. unfold polynomials_valid. destruct w; [|exact I].
  eapply ok_bind; [apply origin_ok; exact F1|]. intros x1 _. eapply ok_bind; [apply origin_ok; exact F2|]. intros x2 _.
  eapply ok_bind; [apply shape_ok; exact F1|]. intros x3 _. eapply ok_bind; [apply shape_ok; exact F2|]. intros x4 _. exact I.
Qed.

Lemma set_component_ok : forall c k t b, sk_base k = Some b -> filled b ->
  ok_with csafe (do m <- cm_set_component c (Some k); do t <- Ok t; Ok (cm_set_tref m (Some t))).
Proof.
  intros c k t b K (F1 & F2). cbn [cm_set_component]. rewrite K. cbn [deref obind].
  assert (M : forall l lim, l <> [] -> ok_with (fun _ => True) (ModulusExtrapolate b l lim)).
  { intros [|x l] lim H; [contradiction|]. unfold ModulusExtrapolate.
    eapply ok_bind; [apply StrainPolynomial_ok; exact H|]. intros y _. exact I. }
  pose proof (M (cc_creep b) (cc_limit_creep b) F1) as M1. pose proof (M (cc_loadstrain b) (cc_limit_loadstrain b) F2) as M2.
  destruct (ModulusExtrapolate b (cc_creep b) (cc_limit_creep b)) as [mc| |]; cbn in M1; try contradiction.
  destruct (ModulusExtrapolate b (cc_loadstrain b) (cc_limit_loadstrain b)) as [ml| |]; cbn in M2; try contradiction.
  cbn [obind ok_with]. split; [exists b; split; [unfold cm_base; cbn; rewrite K; reflexivity|split; assumption]|].
  split; [cbn; discriminate|cbn; discriminate].
Qed.

End Component.

(** ** The cable *)

Section Cable.
Context {N : Num}.
Implicit Types m p : ElongModel N.

(** The cable of a model and which of its components are enabled. *)
Definition wired (m : ElongModel N) (x y : bool) : Prop :=
  exists k, em_cable m = Some k /\ sg_base k <> None /\ sg_core_on k = Ok x /\ sg_shell_on k = Ok y /\ x || y = true.

(** The enabled components satisfy [Q]. *)
Definition parts (Q : CompModel N -> Prop) m (x y : bool) : Prop :=
  (x = true -> Q (em_core m)) /\ (y = true -> Q (em_shell m)).

(** The rest of the model is kept. *)
Definition keeps (m p : ElongModel N) : Prop :=
  em_cable p = em_cable m /\ em_state p = em_state m /\ em_stretch p = em_stretch m /\
  em_upd_state p = em_upd_state m /\ em_upd_stretch p = em_upd_stretch m.

Lemma keeps_refl : forall m, keeps m m.
Proof. intros m. repeat split. Qed.
Lemma keeps_trans : forall m n p, keeps m n -> keeps n p -> keeps m p.
Proof. intros m n p (A1 & A2 & A3 & A4 & A5) (B1 & B2 & B3 & B4 & B5). repeat split; congruence. Qed.
Lemma wired_keeps : forall m p x y, keeps m p -> wired m x y -> wired p x y.
Proof. intros m p x y (A & _) (k & K & H). exists k. split; [congruence|exact H]. Qed.

Lemma core_on : forall m x y, wired m x y -> em_core_on m = Ok x.
Proof. intros m x y (k & K & B & C & S & _). unfold em_core_on. rewrite K. exact C. Qed.
Lemma shell_on : forall m x y, wired m x y -> em_shell_on m = Ok y.
Proof. intros m x y (k & K & B & C & S & _). unfold em_shell_on. rewrite K. exact S. Qed.

(** A model ready for queries, after [m]. *)
Definition steady (m : ElongModel N) (x y : bool) (p : ElongModel N) : Prop :=
  keeps m p /\ em_points p = em_points m /\ parts cready p x y.

Lemma core_value_ok : forall m x y q, wired m x y -> parts cready m x y ->
  (forall c, cready c -> ok_with (fun r => cready (snd r)) (q c)) ->
  ok_with (fun r => steady m x y (snd r)) (core_value m q).
Proof.
  intros m x y q W (P1 & P2) Q. unfold core_value. rewrite (core_on _ _ _ W). cbn [obind]. destruct x.
  - eapply ok_bind; [apply Q; apply P1; reflexivity|]. intros (v, c) C. cbn [snd ok_with] in *.
    split; [repeat split|]. split; [reflexivity|]. split; [intros _; exact C|exact P2].
  - cbn. split; [repeat split|]. split; [reflexivity|]. split; [discriminate|exact P2].
Qed.
Lemma shell_value_ok : forall m x y q, wired m x y -> parts cready m x y ->
  (forall c, cready c -> ok_with (fun r => cready (snd r)) (q c)) ->
  ok_with (fun r => steady m x y (snd r)) (shell_value m q).
Proof.
  intros m x y q W (P1 & P2) Q. unfold shell_value. rewrite (shell_on _ _ _ W). cbn [obind]. destruct y.
  - eapply ok_bind; [apply Q; apply P2; reflexivity|]. intros (v, c) C. cbn [snd ok_with] in *.
    split; [repeat split|]. split; [reflexivity|]. split; [exact P1|intros _; exact C].
  - cbn. split; [repeat split|]. split; [reflexivity|]. split; [exact P1|discriminate].
Qed.

Lemma steady_trans : forall m n p x y, steady m x y n -> steady n x y p -> steady m x y p.
Proof.
  intros m n p x y (A & B & C) (D & E & F). split; [eapply keeps_trans; eassumption|]. split; [congruence|exact F].
Qed.

Lemma both_ok : forall m x y q r (g : N -> N -> N), wired m x y -> parts cready m x y ->
  (forall c, cready c -> ok_with (fun r => cready (snd r)) (q c)) ->
  (forall c, cready c -> ok_with (fun r => cready (snd r)) (r c)) ->
  ok_with (fun r => steady m x y (snd r)) (do (a, n) <- core_value m q; do (b, n) <- shell_value n r; Ok (g a b, n)).
Proof.
  intros m x y q r g W P Q R. eapply ok_bind; [apply core_value_ok; eassumption|]. intros (v, n) H. cbn [snd] in H.
  destruct H as (H1 & H2 & H3).
  eapply ok_bind; [apply shell_value_ok; [eapply wired_keeps; eassumption|exact H3|exact R]|]. intros (w, p) G. cbn [snd] in *.
  cbn. eapply steady_trans; [|exact G]. split; [exact H1|split; [exact H2|exact H3]].
Qed.

Lemma LoadCombined_ok : forall m x y e, wired m x y -> parts cready m x y ->
  ok_with (fun r => steady m x y (snd r)) (LoadCombined m e).
Proof. intros m x y e W P. apply both_ok; try assumption; intros c; apply Load_ok. Qed.
Lemma SlopeCombined_ok : forall m x y e, wired m x y -> parts cready m x y ->
  ok_with (fun r => steady m x y (snd r)) (SlopeCombined m e).
Proof. intros m x y e W P. apply both_ok; try assumption; intros c; apply Slope_ok. Qed.

Lemma strain_loop_ok : forall fuel m x y load prec lo hi cur, wired m x y -> parts cready m x y ->
  ok_with (fun r => steady m x y (snd r)) (strain_loop fuel m load prec lo hi cur).
Proof.
  induction fuel as [|fuel IH]; intros m x y load prec lo hi cur W P; cbn [strain_loop].
  { cbn. split; [apply keeps_refl|]. split; [reflexivity|exact P]. }
  match goal with |- context [if ?q then _ else _] => destruct q end.
  2: { cbn. split; [apply keeps_refl|]. split; [reflexivity|exact P]. }
  cbv zeta. eapply ok_bind; [apply LoadCombined_ok; eassumption|]. intros (v, n) H. cbn [snd] in H. cbn beta iota.
  match goal with |- context [strain_bracket ?a ?b ?c ?d] => destruct (strain_bracket a b c d) as (lo', hi') end.
  eapply ok_mono; [apply IH; [eapply wired_keeps; [apply H|exact W]|apply H]|].
  intros (w, p) G. cbn [snd] in *. eapply steady_trans; eassumption.
Qed.

Lemma load_points_ok : forall l m x y, wired m x y -> parts cready m x y ->
  ok_with (fun r => steady m x y (snd r) /\ length (fst r) = length l) (load_points m l).
Proof.
  induction l as [|q l IH]; intros m x y W P; cbn [load_points].
  { cbn. split; [split; [apply keeps_refl|split; [reflexivity|exact P]]|reflexivity]. }
  eapply ok_bind; [apply LoadCombined_ok; eassumption|]. intros (v, n) H. cbn [snd] in H.
  eapply ok_bind; [apply (IH n x y); [eapply wired_keeps; [apply H|exact W]|apply H]|]. intros (l', p) (G1 & G2). cbn [fst snd] in *.
  cbn. split; [eapply steady_trans; eassumption|congruence].
Qed.

End Cable.

(** ** In real arithmetic *)

Definition laid (m : ElongModel RNum) (x y : bool) (p : ElongModel RNum) : Prop :=
  keeps m p /\ parts cready p x y /\ em_points p <> [].

Lemma insert_x_length : forall (p : Point2d RNum) l, length (insert_x p l) = S (length l).
Proof.
  intros p l. induction l as [|q r IH]; [reflexivity|]. cbn [insert_x].
  destruct (fltb (p2x q) (p2x p)); cbn [length]; congruence.
Qed.

Lemma sort_x_ok : forall l : list (Point2d RNum), ok_with (fun l' => length l' = length l) (sort_x l).
Proof.
  intros l. unfold sort_x.
  assert (F : forallb (fun p : Point2d RNum => feqb (p2x p) (p2x p)) l = true).
  { apply forallb_forall. intros p _. apply Reqb_true. reflexivity. }
  rewrite F. cbn [ok_with]. clear F. induction l as [|p l IH]; [reflexivity|]. cbn [fold_right length].
  rewrite insert_x_length. congruence.
Qed.

Lemma UpdatePointsRegions_ok : forall (m : ElongModel RNum) x y, wired m x y -> parts cready m x y ->
  ok_with (laid m x y) (UpdatePointsRegions m).
Proof.
  intros m x y W P. unfold UpdatePointsRegions. rewrite (core_on _ _ _ W). cbn [obind].
  pose proof P as (P1 & P2).
  apply (ok_bind _ _ (fun r => steady m x y (snd r) /\ (x = true -> fst r <> []))).
  { destruct x; [|cbn; split; [split; [apply keeps_refl|split; [reflexivity|exact P]]|discriminate]].
    eapply ok_bind; [apply Points_ok; apply P1; reflexivity|]. intros (l, c) (C & z & r & E). cbn [fst snd ok_with] in *.
    split; [|intros _; rewrite E; discriminate]. split; [repeat split|]. split; [reflexivity|].
    split; [intros _; exact C|exact P2]. }
  intros (pc, n) (H & Hc). cbn [fst snd] in *. pose proof H as (K & E & Q1 & Q2).
  pose proof (wired_keeps _ _ _ _ K W) as Wn. rewrite (shell_on _ _ _ Wn). cbn [obind].
  apply (ok_bind _ _ (fun r => steady m x y (snd r) /\ (y = true -> fst r <> []))).
  { destruct y; [|cbn; split; [exact H|discriminate]].
    eapply ok_bind; [apply Points_ok; apply Q2; reflexivity|]. intros (l, c) (C & z & r & Ez). cbn [fst snd ok_with] in *.
    split; [|intros _; rewrite Ez; discriminate]. split; [exact K|]. split; [exact E|].
    split; [exact Q1|intros _; exact C]. }
  intros (pl, q) (G & Hl). cbn [fst snd] in *. eapply ok_bind; [apply sort_x_ok|]. intros l L.
  eapply ok_bind; [apply (load_points_ok l q x y); [eapply wired_keeps; [apply G|exact W]|apply G]|].
  intros (l', r) (A & B). cbn [fst snd] in *. cbn [ok_with]. pose proof (steady_trans _ _ _ _ _ G A) as (S1 & S2 & S3).
  split; [exact S1|]. split; [exact S3|]. cbn [em_with_points em_points]. intros Z. subst l'. cbn in B.
  destruct W as (k & _ & _ & _ & _ & O). rewrite L, app_length in B.
  destruct pc as [|z pc]; [|cbn in B; discriminate B]. destruct pl as [|z pl]; [|cbn in B; discriminate B].
  destruct x; [apply (Hc eq_refl); reflexivity|]. cbn in O. apply (Hl O). reflexivity.
Qed.

(** The enabled components are safe and have a stretch state. *)
Definition cstretched (c : CompModel RNum) : Prop := csafe c /\ cm_stretch c <> None.

Lemma cready_set_state : forall c s, cstretched c -> st_type s <> PTNull -> cready (cm_set_state c (Some s)).
Proof.
  intros c s ((B & T & P) & Z) Ty. split; [split; [exact B|split; [exact T|cbn; discriminate]]|].
  split; [exists s; split; [reflexivity|exact Ty]|exact Z].
Qed.
Lemma cready_stretched : forall c : CompModel RNum, cready c -> cstretched c.
Proof. intros c (A & _ & B). split; assumption. Qed.
Lemma cready_set_stretch : forall (c : CompModel RNum) s, cready c -> cready (cm_set_stretch c (Some s)).
Proof.
  intros c s ((B & T & P) & S & Z). split; [split; [exact B|split; [exact T|cbn; discriminate]]|].
  split; [exact S|cbn; discriminate].
Qed.
Lemma cstretched_set_stretch : forall (c : CompModel RNum) s, csafe c -> cstretched (cm_set_stretch c (Some s)).
Proof. intros c s (B & T & P). split; [split; [exact B|split; [exact T|cbn; discriminate]]|cbn; discriminate]. Qed.

Lemma UpdateComponentsState_ok : forall (m : ElongModel RNum) x y s, wired m x y -> parts cstretched m x y -> st_type s <> PTNull ->
  ok_with (laid m x y) (UpdateComponentsState m s).
Proof.
  intros m x y s W (P1 & P2) Ty. unfold UpdateComponentsState. rewrite (core_on _ _ _ W). cbn [obind].
  set (n := if x then em_with_core m (cm_set_state (em_core m) (Some s)) else m).
  assert (Kn : keeps m n) by (unfold n; destruct x; repeat split).
  rewrite (shell_on n x y (wired_keeps _ _ _ _ Kn W)). cbn [obind].
  set (q := if y then em_with_shell n (cm_set_state (em_shell n) (Some s)) else n).
  assert (Kq : keeps m q) by (unfold q, n; destruct x, y; repeat split).
  eapply ok_mono; [apply (UpdatePointsRegions_ok q x y); [eapply wired_keeps; eassumption|]|].
  - split; intros ->; unfold q, n.
    + destruct y; apply cready_set_state; auto.
    + destruct x; apply cready_set_state; auto.
  - intros p (A & B & C). split; [eapply keeps_trans; eassumption|split; assumption].
Qed.

Open Scope R_scope.

Lemma last_cons : forall (A : Type) (l : list A) q p, last (q :: l) p = last l q.
Proof. induction l as [|z l IH]; intros q p; [reflexivity|]. change (last (z :: l) p = last (z :: l) q). rewrite !IH. reflexivity. Qed.

Lemma find_region_ok : forall (load : R) (l : list (Point2d RNum)) (p : Point2d RNum), p2y p < load -> load < p2y (last l p) ->
  ok_with (fun _ => True) (find_region (N := RNum) load (p :: l)).
Proof.
  intros load; induction l as [|q l IH]; intros p A B; [cbn in B; lra|].
  change (find_region (N := RNum) load (p :: q :: l)) with
    (if (fleb (n := RNum) (p2y p) load && fleb (n := RNum) load (p2y q))%bool then Ok (p, q) else find_region (N := RNum) load (q :: l)).
  destruct (fleb (n := RNum) (p2y p) load && fleb (n := RNum) load (p2y q))%bool eqn:C; [exact I|].
  apply andb_false_iff in C. destruct C as [C|C]; apply Rleb_false in C; [lra|].
  apply IH; [exact C|]. rewrite last_cons in B. exact B.
Qed.


Lemma StrainCombined_ok : forall (m : ElongModel RNum) x y load, wired m x y -> parts cready m x y -> em_points m <> [] ->
  ok_with (fun r => steady m x y (snd r)) (StrainCombined m load).
Proof.
  intros m x y load W P Z. unfold StrainCombined. destruct (em_points m) as [|pmin rest] eqn:E; [contradiction|].
  destruct (fleb (n := RNum) load (p2y pmin)) eqn:C1.
  { pose proof W as (k & K & B & _). rewrite K. cbn [deref obind]. destruct (sg_base k) as [b|]; [|contradiction].
    cbn. split; [apply keeps_refl|]. split; [reflexivity|exact P]. }
  apply Rleb_false in C1. destruct (fleb (n := RNum) (p2y (last rest pmin)) load) eqn:C2.
  { cbv zeta. eapply ok_bind; [apply LoadCombined_ok; eassumption|]. intros (v, n) H. cbn [snd] in H.
    eapply ok_mono; [apply (strain_loop_ok _ _ x y); [eapply wired_keeps; [apply H|exact W]|apply H]|].
    intros (w, p) G. cbn [snd] in *. eapply steady_trans; eassumption. }
  apply Rleb_false in C2.
  apply (ok_bind _ _ (fun _ => True)); [apply find_region_ok; assumption|]. intros (lo, hi) _.
  apply strain_loop_ok; assumption.
Qed.

(** The stretch update. *)
Definition stretched_by (m : ElongModel RNum) (x y : bool) (p : ElongModel RNum) : Prop :=
  keeps m p /\ parts cstretched p x y.

Lemma UpdateComponentsStretch_ok : forall (m : ElongModel RNum) x y, wired m x y -> parts csafe m x y ->
  (ss_type (em_stretch m) <> PTNull \/ ss_load (em_stretch m) = 0) ->
  ok_with (stretched_by m x y) (UpdateComponentsStretch m).
Proof.
  intros m x y W (P1 & P2) Ty. unfold UpdateComponentsStretch. rewrite (core_on _ _ _ W). cbn [obind].
  set (z := Some (ss_with_load (em_stretch m) (fofZ 0))).
  set (n := if x then em_with_core m (cm_set_stretch (em_core m) z) else m).
  assert (Kn : keeps m n) by (unfold n; destruct x; repeat split).
  rewrite (shell_on n x y (wired_keeps _ _ _ _ Kn W)). cbn [obind].
  set (q := if y then em_with_shell n (cm_set_stretch (em_shell n) z) else n).
  assert (Kq : keeps m q) by (unfold q, n; destruct x, y; repeat split).
  assert (Pq : parts cstretched q x y).
  { split; intros ->; unfold q, n; [destruct y|destruct x]; apply cstretched_set_stretch; auto. }
  destruct (feqb (n := RNum) (ss_load (em_stretch q)) (fofZ 0)) eqn:C; [cbn; split; assumption|].
  assert (Ty' : ss_type (em_stretch q) <> PTNull).
  { destruct Kq as (_ & _ & K & _). rewrite K. destruct Ty as [Ty|Ty]; [exact Ty|]. exfalso.
    apply Reqb_false in C. rewrite K in C. apply C. rewrite Ty. rn. reflexivity. }
  eapply ok_bind; [apply (UpdateComponentsState_ok q x y); [eapply wired_keeps; eassumption|exact Pq|exact Ty']|].
  intros r (Kr & Pr & Zr). pose proof (keeps_trans _ _ _ Kq Kr) as Kmr.
  eapply ok_bind; [apply (StrainCombined_ok r x y); [eapply wired_keeps; eassumption|exact Pr|exact Zr]|].
  intros (e, u) (Ku & _ & Pu). cbn [snd] in *. pose proof (keeps_trans _ _ _ Kmr Ku) as Kmu.
  apply (ok_bind _ _ (fun p => keeps m p /\ parts cready p x y)).
  { destruct x; [|cbn; split; assumption].
    eapply ok_bind; [apply (core_value_ok u true y); [eapply wired_keeps; eassumption|exact Pu|intros c; apply Load_ok]|].
    intros (v, w) (Kw & _ & (Pw1 & Pw2)). cbn [snd ok_with] in *.
    split; [eapply keeps_trans; [exact Kmu|exact Kw]|]. split; [intros _; apply cready_set_stretch; auto|exact Pw2]. }
  intros w (Kw & Pw). destruct y.
  - eapply ok_bind; [apply (shell_value_ok w x true); [eapply wired_keeps; eassumption|exact Pw|intros c; apply Load_ok]|].
    intros (v, o) (Ko & _ & (Po1 & Po2)). cbn [snd ok_with] in *.
    split; [eapply keeps_trans; [exact Kw|exact Ko]|].
    split; [intros X; apply cready_stretched; apply Po1; exact X|intros _; apply cready_stretched; apply cready_set_stretch; auto].
  - cbn. split; [exact Kw|]. destruct Pw as (A & B). split; [intros X; apply cready_stretched; auto|discriminate].
Qed.

(** ** The invariant over the calls *)

(** A model with a usable cable. *)
Record settled (m : ElongModel RNum) : Prop := mkSettled {
  se_parts : exists x y, wired m x y /\ parts csafe m x y /\
    (em_upd_stretch m = true -> parts cstretched m x y) /\
    (em_upd_state m = true -> em_upd_stretch m = true /\ parts cready m x y /\ em_points m <> [])
}.

Lemma Update_settled : forall (m : ElongModel RNum), settled m -> st_type (em_state m) <> PTNull ->
  (ss_type (em_stretch m) <> PTNull \/ ss_load (em_stretch m) = 0) ->
  ok_with (fun p => exists x y, wired p x y /\ parts cready p x y /\ em_points p <> [] /\ em_cable p = em_cable m /\
             em_state p = em_state m /\ em_stretch p = em_stretch m /\ em_upd_state p = true /\ em_upd_stretch p = true)
    (em_Update m).
Proof.
  intros m [(x & y & W & P & S & T)] Ts Tt. unfold em_Update.
  apply (ok_bind _ _ (fun n => wired n x y /\ parts cstretched n x y /\ em_cable n = em_cable m /\ em_state n = em_state m /\
    em_stretch n = em_stretch m /\ em_upd_state n = em_upd_state m /\ em_upd_stretch n = true /\
    (em_upd_state n = true -> n = m))).
  - destruct (em_upd_stretch m) eqn:V.
    + cbn. specialize (S eq_refl). repeat (split; [assumption || reflexivity|]). reflexivity.
    + eapply ok_bind; [apply (UpdateComponentsStretch_ok m x y); assumption|].
      intros n ((K1 & K2 & K3 & K4 & K5) & Pn). cbn [ok_with].
      assert (K : keeps m n) by (repeat split; assumption).
      split; [destruct (wired_keeps _ _ _ _ K W) as (k & Q); exists k; exact Q|]. split; [exact Pn|].
      repeat (split; [cbn; assumption || reflexivity|]). cbn. rewrite K4. intros U. destruct (T U) as (A & _). congruence.
  - intros n (Wn & Pn & E1 & E2 & E3 & E4 & E5 & E6). destruct (em_upd_state n) eqn:U.
    + rewrite (E6 eq_refl) in *. destruct (T U) as (A & B & C). cbn. exists x, y. repeat (split; [assumption || reflexivity|]). exact A.
    + eapply ok_bind; [apply (UpdateComponentsState_ok n x y); [exact Wn|exact Pn|rewrite E2; exact Ts]|].
      intros p ((K1 & K2 & K3 & K4 & K5) & Pp & Zp). cbn [ok_with]. exists x, y.
      assert (K : keeps n p) by (repeat split; assumption).
      split; [destruct (wired_keeps _ _ _ _ K Wn) as (k & Q); exists k; exact Q|]. split; [exact Pp|].
      split; [exact Zp|]. repeat (split; [cbn; congruence|]). cbn. congruence.
Qed.

(** A model after its update. *)
Definition running (m : ElongModel RNum) (x y : bool) : Prop :=
  wired m x y /\ parts cready m x y /\ em_points m <> [] /\ em_upd_state m = true /\ em_upd_stretch m = true.

Lemma cready_csafe : forall (m : ElongModel RNum) x y, parts cready m x y -> parts csafe m x y /\ parts cstretched m x y.
Proof.
  intros m x y (A & B). split; (split; intros X; [specialize (A X)|specialize (B X)]).
  - apply A.
  - apply B.
  - apply cready_stretched. exact A.
  - apply cready_stretched. exact B.
Qed.

Lemma running_settled : forall (m : ElongModel RNum) x y, running m x y -> settled m.
Proof.
  intros m x y (W & P & Z & U & V). constructor. exists x, y. destruct (cready_csafe _ _ _ P) as (A & B). split; [exact W|]. split; [exact A|]. split; [intros _; exact B|]. intros _. split; [exact V|]. split; assumption.
Qed.

Lemma steady_running : forall (m : ElongModel RNum) x y p, running m x y -> steady m x y p -> running p x y.
Proof.
  intros m x y p (W & P & Z & U & V) (K & E & Q). pose proof K as (K1 & K2 & K3 & K4 & K5).
  split; [eapply wired_keeps; eassumption|]. split; [exact Q|]. split; [congruence|]. split; congruence.
Qed.

(** What a call other than a setter leaves. *)
Definition after (m : ElongModel RNum) (p : ElongModel RNum) : Prop :=
  settled p /\ em_cable p = em_cable m /\ em_state p = em_state m /\ em_stretch p = em_stretch m.

Lemma query_after : forall (A : Type) (q : ElongModel RNum -> outcome (A * ElongModel RNum)) m,
  settled m -> st_type (em_state m) <> PTNull ->
  (ss_type (em_stretch m) <> PTNull \/ ss_load (em_stretch m) = 0) ->
  (forall n x y, running n x y -> em_stretch n = em_stretch m -> em_state n = em_state m ->
     ok_with (fun r => keeps n (snd r) /\ settled (snd r)) (q n)) ->
  ok_with (fun r => after m (snd r)) (do n <- em_Update m; q n).
Proof.
  intros A q m D Ts Tt Q. eapply ok_bind; [apply Update_settled; assumption|].
  intros n (x & y & W & P & Z & E1 & E2 & E3 & E4 & E5).
  eapply ok_mono; [apply (Q n x y); [repeat (split; [assumption|]); assumption|exact E3|exact E2]|].
  intros (v, p) ((K1 & K2 & K3 & _) & Dp). cbn [snd] in *. split; [exact Dp|]. split; [congruence|]. split; congruence.
Qed.

Lemma steady_done : forall (B : Type) n x y (o : outcome (B * ElongModel RNum)), running n x y ->
  ok_with (fun r => steady n x y (snd r)) o -> ok_with (fun r => keeps n (snd r) /\ settled (snd r)) o.
Proof.
  intros B n x y o R H. eapply ok_mono; [exact H|]. intros (v, p) G. cbn [snd] in *. split; [apply G|].
  eapply running_settled. eapply steady_running; eassumption.
Qed.

Lemma running_here : forall (B : Type) (v : B) n x y, running n x y ->
  ok_with (fun r => keeps n (snd r) /\ settled (snd r)) (Ok (v, n)).
Proof. intros B v n x y R. cbn. split; [apply keeps_refl|]. eapply running_settled. exact R. Qed.

(** Validate: the models of the components. *)
Lemma component_valid_ok : forall w on (c : CompModel RNum), (on = true -> cready c) ->
  ok_with (fun r => on = true -> cready (snd r)) (component_model_valid w on c).
Proof.
  intros w [|] c H; cbn [component_model_valid]; [|cbn; discriminate].
  eapply ok_mono; [apply Validate_ok; auto|]. intros r Hr _. exact Hr.
Qed.

Lemma parts_mono : forall (Q T : CompModel RNum -> Prop) m x y, (forall c, Q c -> T c) -> parts Q m x y -> parts T m x y.
Proof. intros Q T m x y H (A & B). split; auto. Qed.

Lemma limit_valid_ok : forall (m : ElongModel RNum) (on : bool) t smax q (b : outcome (CableComponent RNum)) x y,
  wired m x y -> parts cready m x y -> t <> PTNull -> (on = true -> exists k, b = Ok k) ->
  (forall l, ok_with (fun r => steady m x y (snd r)) (q l)) ->
  ok_with (fun r => steady m x y (snd r)) (limit_valid on b t smax q m).
Proof.
  intros m on t smax q b x y W P T B Q. unfold limit_valid. destruct on.
  - destruct (B eq_refl) as (k & ->). cbn [obind].
    apply (ok_bind _ _ (fun _ => True)); [destruct t; [contradiction|exact I|exact I]|]. intros l _.
    eapply ok_bind; [apply Q|]. intros (v, n) H. exact H.
  - cbn. split; [apply keeps_refl|]. split; [reflexivity|exact P].
Qed.

Lemma parts_base : forall (m : ElongModel RNum) x y, parts cready m x y ->
  (x = true -> exists b, cm_base (em_core m) = Ok b) /\ (y = true -> exists b, cm_base (em_shell m) = Ok b).
Proof.
  intros m x y (A & B). split; intros X; [destruct (A X) as (((b & E & _) & _) & _)|destruct (B X) as (((b & E & _) & _) & _)];
    exists b; exact E.
Qed.

Lemma StrainLimit_ok : forall w (m : ElongModel RNum) x y, running m x y -> st_type (em_state m) <> PTNull ->
  ok_with (fun r => keeps m (snd r) /\ running (snd r) x y) (ValidateComponentsStrainLimit w m).
Proof.
  intros w m x y R Ts. pose proof R as (W & P & Z & U & V). unfold ValidateComponentsStrainLimit. destruct w.
  2: { cbn. split; [apply keeps_refl|exact R]. }
  pose proof W as (k & K & B & Con & Son & O). rewrite K. cbn [deref obind]. destruct (sg_base k) as [cb|]; [|contradiction].
  cbn [deref obind].
  eapply ok_bind; [apply (UpdateComponentsState_ok m x y); [exact W|apply (parts_mono cready); [apply cready_stretched|exact P]|discriminate]|].
  intros n (Kn & Pn & Zn). pose proof (wired_keeps _ _ _ _ Kn W) as Wn.
  eapply ok_bind; [apply (StrainCombined_ok n x y); assumption|]. intros (smax, p) (Kp & Ep & Pp). cbn [snd] in *.
  pose proof (wired_keeps _ _ _ _ Kp Wn) as Wp. pose proof (keeps_trans _ _ _ Kn Kp) as Kmp.
  rewrite (core_on _ _ _ Wp). cbn [obind].
  assert (Tp : st_type (em_state p) <> PTNull). { destruct Kmp as (_ & Q & _). rewrite Q. exact Ts. }
  eapply ok_bind; [apply (limit_valid_ok p x _ _ _ _ x y); [exact Wp|exact Pp|exact Tp|apply (parts_base p x y Pp)|
    intros l; apply core_value_ok; [exact Wp|exact Pp|intros c; apply Strain_ok]]|].
  intros (v1, q) (Kq & Eq & Pq). cbn [snd] in *. pose proof (wired_keeps _ _ _ _ Kq Wp) as Wq.
  pose proof (keeps_trans _ _ _ Kmp Kq) as Kmq. rewrite (shell_on _ _ _ Wq). cbn [obind].
  assert (Tq : st_type (em_state q) <> PTNull). { destruct Kmq as (_ & Q & _). rewrite Q. exact Ts. }
  eapply ok_bind; [apply (limit_valid_ok q y _ _ _ _ x y); [exact Wq|exact Pq|exact Tq|apply (parts_base q x y Pq)|
    intros l; apply shell_value_ok; [exact Wq|exact Pq|intros c; apply Strain_ok]]|].
  intros (v2, r) (Kr & Er & Pr). cbn [snd] in *. pose proof (wired_keeps _ _ _ _ Kr Wq) as Wr.
  pose proof (keeps_trans _ _ _ Kmq Kr) as Kmr.
  eapply ok_bind; [apply (UpdateComponentsState_ok r x y); [exact Wr|apply (parts_mono cready); [apply cready_stretched|exact Pr]|]|].
  { destruct Kmr as (_ & Q & _). rewrite Q. exact Ts. }
  intros t (Kt & Pt & Zt). cbn [ok_with snd]. pose proof (keeps_trans _ _ _ Kmr Kt) as Kmt. split; [exact Kmt|].
  pose proof Kmt as (_ & _ & _ & F1 & F2). split; [eapply wired_keeps; eassumption|]. split; [exact Pt|]. split; [exact Zt|].
  split; congruence.
Qed.

Lemma cready_set_both : forall (c : CompModel RNum) s ss, csafe c -> st_type s <> PTNull ->
  cready (cm_set_stretch (cm_set_state c (Some s)) (Some ss)).
Proof.
  intros c s ss (B & T & P) Ty. split; [split; [exact B|split; [exact T|cbn; discriminate]]|].
  split; [exists s; split; [reflexivity|exact Ty]|cbn; discriminate].
Qed.

Lemma StrainUnloaded_ok : forall w (m : ElongModel RNum) x y, running m x y -> st_type (em_state m) <> PTNull ->
  ok_with (fun r => keeps m (snd r) /\ running (snd r) x y) (ValidateComponentsStrainUnloaded w m).
Proof.
  intros w m x y R Ts. pose proof R as (W & P & Z & U & V). unfold ValidateComponentsStrainUnloaded. destruct w.
  2: { cbn. split; [apply keeps_refl|exact R]. }
  rewrite (core_on _ _ _ W). cbn [obind]. destruct x; [|cbn; split; [apply keeps_refl|exact R]].
  pose proof W as (k & K & B & Con & Son & O). rewrite K. cbn [deref obind]. destruct (sg_base k) as [cb|]; [|contradiction].
  cbn [deref obind]. cbv zeta.
  match goal with |- context [StrainCore ?n0 (fofZ 0)] => set (n := n0) end.
  assert (Kn : keeps m n) by (repeat split). pose proof (wired_keeps _ _ _ _ Kn W) as Wn.
  destruct (cready_csafe _ _ _ P) as ((P1 & P2) & _).
  assert (Pn : parts cready n true y).
  { split; intros X; apply cready_set_both; auto; discriminate. }
  eapply ok_bind; [apply (core_value_ok n true y); [exact Wn|exact Pn|intros c; apply Strain_ok]|].
  intros (x1, p) (Kp & Ep & Pp). cbn [snd] in *. pose proof (wired_keeps _ _ _ _ Kp Wn) as Wp.
  eapply ok_bind; [apply (shell_value_ok p true y); [exact Wp|exact Pp|intros c; apply Strain_ok]|].
  intros (x2, q) (Kq & Eq & Pq). cbn [snd] in *. pose proof (wired_keeps _ _ _ _ Kq Wp) as Wq.
  pose proof (keeps_trans _ _ _ Kn (keeps_trans _ _ _ Kp Kq)) as Kmq. cbn [ok_with snd].
  match goal with |- keeps m ?n' /\ _ => set (r := n') end.
  assert (Kr : keeps q r) by (repeat split). pose proof (keeps_trans _ _ _ Kmq Kr) as Kmr.
  split; [exact Kmr|]. pose proof Kmr as (_ & _ & _ & F1 & F2). split; [eapply wired_keeps; eassumption|].
  destruct (cready_csafe _ _ _ Pq) as ((Q1 & Q2) & _).
  split; [|split; [change (em_points r) with (em_points q); rewrite Eq, Ep; exact Z|split; congruence]].
  assert (Tq : st_type (em_state q) <> PTNull). { destruct Kmq as (_ & Q & _). rewrite Q. exact Ts. }
  split; intros X; apply cready_set_both; auto.
Qed.

Lemma Validate_after : forall w (m : ElongModel RNum), settled m \/ em_cable m = None ->
  (CableState_Validate (em_state m) = true -> st_type (em_state m) <> PTNull) ->
  (StretchState_Validate (em_stretch m) = true -> ss_type (em_stretch m) <> PTNull \/ ss_load (em_stretch m) = 0) ->
  ok_with (fun r => (settled m -> settled (snd r)) /\ em_cable (snd r) = em_cable m /\ em_state (snd r) = em_state m /\
             em_stretch (snd r) = em_stretch m) (em_Validate w m).
Proof.
  intros w m D Ts Tt. unfold em_Validate.
  assert (H : ok_with (fun v => v = true -> settled m) (match em_cable m with Some c => sg_Validate c | None => Ok false end)).
  { destruct D as [D|D]; [|rewrite D; cbn; discriminate]. pose proof D as [(x & y & (k & K & B & C & S & O) & _)].
    rewrite K. unfold sg_Validate. destruct (sg_base k); [|cbn; discriminate]. rewrite C, S. cbn. auto. }
  eapply ok_bind; [exact H|]. intros v Hv.
  destruct (v && CableState_Validate (em_state m) && StretchState_Validate (em_stretch m))%bool eqn:G.
  2: { cbn. auto. }
  apply andb_true_iff in G. destruct G as (G & G3). apply andb_true_iff in G. destruct G as (G1 & G2).
  specialize (Hv G1). specialize (Ts G2). specialize (Tt G3).
  apply (ok_mono _ (fun r => after m (snd r))); [|intros r (A1 & A2); auto].
  apply (query_after bool (fun m => do c <- deref (em_cable m); do on <- sg_on c; if on then _ else _)); try assumption.
  intros n x y R E3 E2. pose proof R as (W & P & Z & U & V). pose proof W as (k & K & B & Con & Son & O).
  rewrite K. cbn [deref obind]. unfold sg_on. rewrite Con, Son. cbn [obind]. rewrite O.
  rewrite (core_on _ _ _ W). cbn [obind]. pose proof P as (P1 & P2).
  eapply ok_bind; [apply component_valid_ok; exact P1|]. intros (v1, c) Hc. cbn [snd] in Hc.
  assert (K1 : keeps n (em_with_core n c)) by (repeat split).
  rewrite (shell_on _ _ _ (wired_keeps _ _ _ _ K1 W)). cbn [obind].
  eapply ok_bind; [apply component_valid_ok; exact P2|]. intros (v2, d) Hd. cbn [snd] in Hd.
  set (q := em_with_shell (em_with_core n c) d).
  assert (Kq : keeps n q) by (repeat split).
  assert (Rq : running q x y).
  { split; [eapply wired_keeps; eassumption|]. split; [split; assumption|]. split; [exact Z|]. split; assumption. }
  assert (Tq : st_type (em_state q) <> PTNull). { change (em_state q) with (em_state n). rewrite E2. exact Ts. }
  eapply ok_bind; [apply (StrainLimit_ok w q x y); assumption|]. intros (v3, r) (Kr & Rr). cbn [snd] in *.
  eapply ok_bind; [apply (StrainUnloaded_ok w r x y); [exact Rr|]|].
  { destruct Kr as (_ & Q & _). rewrite Q. exact Tq. }
  intros (v4, t) (Kt & Rt). cbn [snd ok_with] in *.
  split; [eapply keeps_trans; [exact Kq|]; eapply keeps_trans; eassumption|eapply running_settled; exact Rt].
Qed.

(** ** Histories *)

Lemma set_base_filled : forall b : CableComponent RNum, sk_enabled (sk_set_base (Some b)) = Some true -> filled b.
Proof.
  intros b H. cbn in H. injection H as H. apply andb_true_iff in H. destruct H as (H1 & H2).
  split; intros E; [rewrite E in H1; discriminate H1|rewrite E in H2; discriminate H2].
Qed.

Lemma has_nonzero_in : forall (l : list RNum) x, In x l -> feqb x (fofZ 0) = false -> has_nonzero l = true.
Proof.
  intros l x I E. unfold has_nonzero. apply existsb_exists. exists x. split; [exact I|]. rewrite E. reflexivity.
Qed.

Lemma has_curves_enabled : forall b : CableComponent RNum, has_curves b -> sk_enabled (sk_set_base (Some b)) = Some true.
Proof.
  intros b ((x & I1 & E1) & (z & I2 & E2)). cbn. rewrite (has_nonzero_in _ _ I1 E1), (has_nonzero_in _ _ I2 E2). reflexivity.
Qed.

Lemma set_part_ok : forall (b : CableComponent RNum) e c (t : RNum), sk_enabled (sk_set_base (Some b)) = Some e ->
  ok_with (fun q => e = true -> csafe q) (set_component_model e c (sk_set_base (Some b)) (Ok t)).
Proof.
  intros b e c t E. destruct e; [|cbn; discriminate]. cbn [set_component_model].
  eapply ok_mono; [apply (set_component_ok c (sk_set_base (Some b)) t b); [reflexivity|apply set_base_filled; exact E]|].
  intros q H _. exact H.
Qed.

Lemma set_cable_settled : forall (m : ElongModel RNum) b, has_curves (cb_core b) \/ has_curves (cb_shell b) ->
  ok_with (fun p => settled p /\ em_state p = em_state m /\ em_stretch p = em_stretch m)
    (em_set_cable m (Some (sg_set_base (Some b)))).
Proof.
  intros m b H. set (k := sg_set_base (Some b)). cbn [em_set_cable]. fold k.
  assert (X : exists x, sg_core_on k = Ok x /\ sk_enabled (sk_set_base (Some (cb_core b))) = Some x /\
    (has_curves (cb_core b) -> x = true)).
  { eexists. split; [reflexivity|]. split; [reflexivity|]. intros C. apply has_curves_enabled in C. cbn in C. injection C as C. exact C. }
  assert (Y : exists y, sg_shell_on k = Ok y /\ sk_enabled (sk_set_base (Some (cb_shell b))) = Some y /\
    (has_curves (cb_shell b) -> y = true)).
  { eexists. split; [reflexivity|]. split; [reflexivity|]. intros C. apply has_curves_enabled in C. cbn in C. injection C as C. exact C. }
  destruct X as (x & X1 & X2 & X3), Y as (y & Y1 & Y2 & Y3). rewrite X1. cbn [obind].
  change (omap (cb_temperature (N := RNum)) (deref (sg_base k))) with (Ok (cb_temperature b)).
  eapply ok_bind; [apply (set_part_ok (cb_core b)); exact X2|]. intros c Hc. rewrite Y1. cbn [obind].
  eapply ok_bind; [apply (set_part_ok (cb_shell b)); exact Y2|]. intros d Hd. cbn [ok_with em_state em_stretch].
  split; [|split; reflexivity]. constructor. exists x, y.
  split; [exists k; split; [reflexivity|]; split; [cbn; discriminate|]; split; [exact X1|]; split; [exact Y1|]|].
  { destruct H as [H|H]; [rewrite (X3 H); reflexivity|rewrite (Y3 H); apply orb_true_r]. }
  split; [split; assumption|]. split; cbn; discriminate.
Qed.

Record fit (k s t : bool) (m : ElongModel RNum) : Prop := mkFit {
  fi_cable : if k then settled m else em_cable m = None;
  fi_state : if s then st_type (em_state m) <> PTNull else em_state m = CableState_default;
  fi_stretch : if t then ss_type (em_stretch m) <> PTNull \/ ss_load (em_stretch m) = 0
               else em_stretch m = StretchState_default
}.

Lemma fit_after : forall k s t (m p : ElongModel RNum), fit k s t m -> (settled m -> settled p) -> em_cable p = em_cable m ->
  em_state p = em_state m -> em_stretch p = em_stretch m -> fit k s t p.
Proof.
  intros k s t m p [A B C] S E1 E2 E3. constructor; [destruct k; [auto|congruence]| |]; rewrite ?E2, ?E3; assumption.
Qed.

Lemma state_default_invalid : CableState_Validate (N := RNum) CableState_default = false.
Proof. unfold CableState_Validate, CableState_default. cbn [st_type ptype_eqb negb]. apply andb_false_r. Qed.
Lemma stretch_default_invalid : StretchState_Validate (N := RNum) StretchState_default = false.
Proof.
  unfold StretchState_Validate, StretchState_default. cbn [ss_load]. apply negb_false_iff. apply Rltb_true.
  rewrite ferr_R. rn. lra.
Qed.

Lemma call_fit : forall k s t (m : ElongModel RNum) c cs, fit k s t m -> usable_call c -> prepared k s t (c :: cs) = true ->
  exists k' s' t' p, em_call m c = Ok p /\ fit k' s' t' p /\ prepared k' s' t' cs = true.
Proof.
  intros k s t m c cs Fm U P.
  assert (Q : forall (B : Type) (g : ElongModel RNum -> outcome (B * ElongModel RNum)),
    (forall n x y, running n x y -> ok_with (fun r => steady n x y (snd r)) (g n)) ->
    forall o, o = (do n <- em_Update m; g n) -> (k && s && t && prepared k s t cs)%bool = true ->
    exists k' s' t' p, omap snd o = Ok p /\ fit k' s' t' p /\ prepared k' s' t' cs = true).
  { intros B g G o -> Pq. apply andb_true_iff in Pq. destruct Pq as (Pq & P4). apply andb_true_iff in Pq. destruct Pq as (Pq & P3).
    apply andb_true_iff in Pq. destruct Pq as (P1 & P2). subst k s t. pose proof Fm as [A1 A2 A3].
    pose proof (query_after B g m A1 A2 A3) as H.
    assert (X : ok_with (fun r => after m (snd r)) (do n <- em_Update m; g n)).
    { apply H. intros n x y R _ _. eapply steady_done; [exact R|]. apply G. exact R. }
    destruct (do n <- em_Update m; g n) as [(v, p)| |]; cbn in X; try contradiction. destruct X as (X1 & X2 & X3 & X4).
    exists true, true, true, p. split; [reflexivity|]. split; [|exact P4]. eapply fit_after; eauto. }
  pose proof Fm as [A1 A2 A3]. destruct c as [c|st|ss|ty e|ty e|ty y|w]; cbn [em_call usable_call prepared] in *.
  - destruct U as (b & -> & H). pose proof (set_cable_settled m b H) as X.
    destruct (em_set_cable m (Some (sg_set_base (Some b)))) as [p| |]; cbn in X; try contradiction.
    destruct X as (X1 & X2 & X3). exists true, s, t, p. split; [reflexivity|]. split; [|exact P].
    constructor; [exact X1| |]; rewrite ?X2, ?X3; assumption.
  - exists k, true, t. eexists. split; [reflexivity|]. split; [|exact P]. constructor; [|exact U|exact A3].
    destruct k; [|exact A1]. destruct A1 as [(x & y & W & Pa & S & T)]. constructor. exists x, y.
    split; [destruct W as (k & W); exists k; exact W|]. split; [exact Pa|]. split; [exact S|cbn; discriminate].
  - exists k, s, true. eexists. split; [reflexivity|]. split; [|exact P].
    constructor; [|exact A2|destruct U as [U|U]; [left; exact U|right; cbn; rewrite U; rn; reflexivity]].
    destruct k; [|exact A1]. destruct A1 as [(x & y & W & Pa & S & T)]. constructor. exists x, y.
    split; [destruct W as (k & W); exists k; exact W|]. split; [exact Pa|]. split; cbn; discriminate.
  - apply (Q RNum (fun n => match ty with CTCombined => LoadCombined n e | CTCore => LoadCore n e
      | CTShell => LoadShell n e | CTNull => Ok (ferr, n) end)); [|reflexivity|exact P].
    intros n x y (W & R & _). destruct ty.
    + cbn. split; [apply keeps_refl|]. split; [reflexivity|exact R].
    + apply LoadCombined_ok; assumption.
    + apply core_value_ok; try assumption. intros c. apply Load_ok.
    + apply shell_value_ok; try assumption. intros c. apply Load_ok.
  - apply (Q RNum (fun n => match ty with CTCombined => SlopeCombined n e | CTCore => SlopeCore n e
      | CTShell => SlopeShell n e | CTNull => Ok (ferr, n) end)); [|reflexivity|exact P].
    intros n x y (W & R & _). destruct ty.
    + cbn. split; [apply keeps_refl|]. split; [reflexivity|exact R].
    + apply SlopeCombined_ok; assumption.
    + apply core_value_ok; try assumption. intros c. apply Slope_ok.
    + apply shell_value_ok; try assumption. intros c. apply Slope_ok.
  - apply (Q RNum (fun n => match ty with CTCombined => StrainCombined n y | CTCore => StrainCore n y
      | CTShell => StrainShell n y | CTNull => Ok (ferr, n) end)); [|reflexivity|exact P].
    intros n x z (W & R & Z & _). destruct ty.
    + cbn. split; [apply keeps_refl|]. split; [reflexivity|exact R].
    + apply StrainCombined_ok; assumption.
    + apply core_value_ok; try assumption. intros c. apply Strain_ok.
    + apply shell_value_ok; try assumption. intros c. apply Strain_ok.
  - pose proof (Validate_after w m) as X.
    assert (Y : ok_with (fun r => (settled m -> settled (snd r)) /\ em_cable (snd r) = em_cable m /\
      em_state (snd r) = em_state m /\ em_stretch (snd r) = em_stretch m) (em_Validate w m)).
    { apply X.
      - destruct k; auto.
      - intros V. destruct s; [exact A2|]. rewrite A2, state_default_invalid in V. discriminate V.
      - intros V. destruct t; [exact A3|]. rewrite A3, stretch_default_invalid in V. discriminate V. }
    destruct (em_Validate w m) as [(v, p)| |]; cbn in Y; try contradiction. destruct Y as (Y1 & Y2 & Y3 & Y4).
    exists k, s, t, p. split; [reflexivity|]. split; [|exact P]. eapply fit_after; eassumption.
Qed.

Lemma run_fit : forall cs k s t (m : ElongModel RNum), fit k s t m -> Forall usable_call cs -> prepared k s t cs = true ->
  exists p, em_run m cs = Ok p.
Proof.
  induction cs as [|c cs IH]; intros k s t m Fm U P; [exists m; reflexivity|]. inversion U as [|c' cs' Uc Ucs]; subst.
  destruct (call_fit k s t m c cs Fm Uc P) as (k' & s' & t' & p & E & Fp & Pp). cbn [em_run]. rewrite E. cbn [obind].
  apply (IH k' s' t' p); assumption.
Qed.

Theorem prepared_runs : forall cs : list (EmCall RNum), Forall usable_call cs -> prepared false false false cs = true ->
  exists m, em_run ElongModel_new cs = Ok m.
Proof.
  intros cs U P. apply (run_fit cs false false false ElongModel_new); try assumption. constructor; reflexivity.
Qed.
