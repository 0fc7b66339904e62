(** The sag position corrector: sizes, offsets, the tensions at the pulleys. *)
From Coq Require Import ZArith Bool List Reals Lra Lia.
From Verif Require Import Num NumFacts ModelBase ModelLine ModelCatenary SpecCatenary ModelSolver SpecSolver ModelThermal ModelSagtension ModelSagging SpecSagging
  ProofReal ProofCatenary ProofCatenary3 ProofSolver ProofSolverTarget ProofSagging.
Import ListNotations.

Section Lists.
Context {N : Num}.

(** ** What the corrector answers *)
Lemma corrected_iff : forall (s : Corrector N) c p, pc_current s -> corrected s c p ->
  exists n, corrected_of (pc_linecable s) (pc_points s) = Ok (Some (c, p, n)) /\
  omap fst (ClippingOffsets s) = obind (offsets_loop #0%num #0%num c p) (fun r => Ok (#0%num :: r)) /\
  omap fst (SagCorrections s) = corrections_loop c p.
Proof.
  intros s c p C (A & B). generalize (pc_ensure_of s C). revert A B.
  unfold CatenariesClipped, CatenariesPulleyed, ClippingOffsets, SagCorrections.
  destruct (corrected_of (pc_linecable s) (pc_points s)) as [[[[c' p'] n]|]| |].
  - intros A B (s' & E & E1 & E2 & E3). rewrite E in *. cbn [obind omap] in *. injection A as A. injection B as B.
    rewrite <- A, <- B, E1, E2. exists n.
    split; [reflexivity|]. split.
    + destruct (offsets_loop _ _ _ _); reflexivity.
    + destruct (corrections_loop _ _); reflexivity.
  - intros A B (s' & E). rewrite E in A. discriminate A.
  - intros A B E. rewrite E in A. discriminate A.
  - intros A B E. rewrite E in A. discriminate A.
Qed.

(** ** The clipped state *)
Lemma clipped_nth : forall section ps a i c, nth_error (clipped_spans section a ps) i = Some c ->
  exists x y, nth_error (a :: ps) i = Some x /\ nth_error (a :: ps) (S i) = Some y /\
  c = c3_fresh (N := N) ADPositive (mkVector3d (p3x y - p3x x) (p3y y - p3y x) (p3z y - p3z x))%num (c3_tension_horizontal section) (c3_weight section).
Proof.
  intros section. induction ps as [|b ps IH]; intros a i c H; cbn [clipped_spans] in H; [destruct i; discriminate H|].
  destruct i as [|i]; cbn [nth_error] in H.
  - injection H as <-. exists a, b. auto.
  - destruct (IH b i c H) as (x & y & X & Y & E). exists x, y. auto.
Qed.

Lemma clipped_length : forall section ps a, length (clipped_spans (N := N) section a ps) = length ps.
Proof. intros section. induction ps as [|b ps IH]; intros a; cbn [clipped_spans length]; [reflexivity|]. rewrite IH. reflexivity. Qed.

(** ** Tensions change nothing else *)
Definition keeps (a b : Catenary3d N) : Prop := b = a \/ exists h, b = c3_set_tension a h.

Lemma keeps_trans : forall a b c, keeps a b -> keeps b c -> keeps a c.
Proof.
  intros a b c [-> | (h & ->)] [-> | (k & ->)]; [left|right; exists k|right; exists h|right; exists k]; reflexivity.
Qed.

Lemma solve_spans_keeps : forall cs solver prev ok ds, solve_spans (N := N) solver prev cs = (ok, ds) ->
  length ds = length cs /\ (ok = true -> Forall2 keeps cs ds).
Proof.
  induction cs as [|c cs IH]; intros solver prev ok ds H; cbn [solve_spans] in H.
  - injection H as <- <-. split; [reflexivity|constructor].
  - destruct (cs_Validate _) as [[] solver']; [|injection H as <- <-; split; [reflexivity|discriminate]].
    destruct (cs_TensionHorizontal solver') as [h solver'']. destruct (solve_spans solver'' (c3_set_tension c h) cs) as [ok' cs'] eqn:E.
    injection H as <- <-. destruct (IH _ _ _ _ E) as (A & B). cbn [length]. split; [congruence|].
    intros O. constructor; [right; exists h; reflexivity|exact (B O)].
Qed.

Lemma Solve_keeps : forall cs h ds, SolvePulleyStateTensions (N := N) cs h = Ok (true, ds) -> Forall2 keeps cs ds.
Proof.
  intros [|c cs] h ds H; [discriminate H|]. cbn [SolvePulleyStateTensions] in H.
  destruct (solve_spans _ _ cs) as [ok cs'] eqn:E. injection H as -> <-. constructor; [right; exists h; reflexivity|].
  apply (solve_spans_keeps _ _ _ _ _ E). reflexivity.
Qed.

Lemma Forall2_trans : forall (A : Type) (P : A -> A -> Prop), (forall a b c, P a b -> P b c -> P a c) ->
  forall x y z, Forall2 P x y -> Forall2 P y z -> Forall2 P x z.
Proof.
  intros A P T x y z H. revert z. induction H as [|a b x y H1 H IH]; intros z G; inversion G; subst; constructor; eauto.
Qed.

(** ** The loop: every pass solves the tensions of all spans for a new first tension *)
Record stepped (clipped : list (Catenary3d N)) (cs : list (Catenary3d N)) : Prop := mkStepped {
  sp_keeps : Forall2 keeps clipped cs;
  sp_solved : exists cs' h, Forall2 keeps clipped cs' /\ SolvePulleyStateTensions cs' h = Ok (true, cs)
}.

Definition drawn (clipped : list (Catenary3d N)) (q : Point2d N) : Prop :=
  exists cs' cs, Forall2 keeps clipped cs' /\ SolvePulleyStateTensions cs' (p2x q) = Ok (true, cs) /\ p2y q = LengthCatenaries cs.

(** The state of the loop: the points of the secant, and the current point is a point of the
    catenaries, or the catenaries are those of the right point. *)
Record looped (clipped : list (Catenary3d N)) (s : Pulley N) : Prop := mkLooped {
  lp_left : drawn clipped (pu_left s);
  lp_right : drawn clipped (pu_right s);
  lp_current : exists cs' h, Forall2 keeps clipped cs' /\ SolvePulleyStateTensions cs' h = Ok (true, pu_catenaries s) /\
     ((pu_current s = mkPoint2d h (LengthCatenaries (pu_catenaries s))) \/
      (pu_current s = Point2d_default /\ h = p2x (pu_right s)));
  lp_iter : (0 <= pu_iter s)%Z
}.

Lemma Solve_after : forall clipped cs' h cs, Forall2 keeps clipped cs' -> SolvePulleyStateTensions cs' h = Ok (true, cs) ->
  Forall2 keeps clipped cs.
Proof.
  intros clipped cs' h cs A B. eapply Forall2_trans; [apply keeps_trans|exact A|]. exact (Solve_keeps _ _ _ B).
Qed.

Lemma pass_looped : forall clipped goal s s', looped clipped s -> pulley_pass goal s = Ok (true, s') ->
  looped clipped s' /\ exists h, pu_current s' = mkPoint2d h (LengthCatenaries (pu_catenaries s')).
Proof.
  intros clipped goal s s' [A B (cs0 & h0 & K0 & S0 & _) I] H. unfold pulley_pass in H. cbv zeta in H.
  set (x := fadd _ _) in H.
  destruct (SolvePulleyStateTensions (pu_catenaries s) x) as [[[] cs]| |] eqn:E; cbn [obind] in H; try discriminate H.
  assert (K := Solve_after _ _ _ _ K0 S0). assert (K' := Solve_after _ _ _ _ K E).
  set (q := mkPoint2d x (LengthCatenaries cs)) in H.
  assert (Q : drawn clipped q) by (exists (pu_catenaries s), cs; auto).
  set (lr := if (x <? p2x (pu_left s))%num then _ else _) in H.
  assert (LR : drawn clipped (fst lr) /\ drawn clipped (snd lr)).
  { unfold lr. repeat match goal with |- context [if ?b then _ else _] => destruct b end; cbn [fst snd]; auto. }
  destruct lr as [l r]. cbn [fst snd] in LR. injection H as <-. split; [|exists x; reflexivity].
  constructor; cbn [pu_left pu_right pu_current pu_iter pu_catenaries]; [apply LR|apply LR| |lia].
  exists (pu_catenaries s), x. auto.
Qed.

Lemma loop_looped : forall clipped goal fuel s s', looped clipped s -> pulley_loop goal fuel s = Ok (true, s') ->
  looped clipped s' /\ (pulley_continues goal s' = false \/ (pu_iter s' = pu_iter s + Z.of_nat fuel)%Z) /\
  (s' = s \/ exists h, pu_current s' = mkPoint2d h (LengthCatenaries (pu_catenaries s'))).
Proof.
  intros clipped goal. induction fuel as [|fuel IH]; intros s s' L H; cbn [pulley_loop] in H.
  - injection H as <-. split; [exact L|]. split; [right; lia|left; reflexivity].
  - destruct (pulley_continues goal s) eqn:C; [|injection H as <-; auto].
    destruct (pulley_pass goal s) as [[[] t]| |] eqn:E; cbn [obind] in H; try discriminate H.
    destruct (pass_looped clipped goal s t L E) as (L' & P). destruct (IH t s' L' H) as (A & B & D).
    assert (J : pu_iter t = (pu_iter s + 1)%Z).
    { unfold pulley_pass in E. cbv zeta in E. destruct (SolvePulleyStateTensions _ _) as [[[] cs]| |]; cbn [obind] in E; try discriminate E.
      destruct (if (_ <? _)%num then _ else _) as [l r]. injection E as <-. reflexivity. }
    split; [exact A|]. split; [destruct B as [B|B]; [left; exact B|right; lia]|].
    right. destruct D as [-> | D]; assumption.
Qed.

(** What a successful update knows of its catenaries. *)
Lemma pulleyed_facts : forall clipped p n, pulleyed_of (N := N) clipped = Ok (Some (p, n)) ->
  clipped <> [] /\
  exists s, looped clipped s /\ pulley_continues (LengthCatenaries clipped) s = false /\ p = pu_catenaries s /\ n = p2y (pu_current s) /\ (pu_iter s < 100)%Z /\
  ((exists h, pu_current s = mkPoint2d h (LengthCatenaries p)) \/
   exists c, nth_error clipped 0 = Some c /\ pu_current s = Point2d_default /\ p2x (pu_left s) = c3_tension_horizontal c /\
     p2x (pu_right s) = fmul (c3_tension_horizontal c) (flit 110 (-2))) /\
  exists s0 cs', pulley_loop (LengthCatenaries clipped) (Z.to_nat 102) s0 = Ok (true, s) /\ Forall2 keeps clipped cs' /\
    SolvePulleyStateTensions cs' (p2x (pu_right s0)) = Ok (true, pu_catenaries s0).
Proof.
  intros clipped p n H. unfold pulleyed_of, UpdatePulleyState in H. cbn [pc_clipped pc_length_clipped] in H.
  destruct clipped as [|c cs]; [discriminate H|]. split; [discriminate|]. cbn [obind] in H. set (cl := c :: cs) in *.
  assert (K0 : Forall2 keeps cl cl).
  { clear. induction cl as [|a l IH]; constructor; [left; reflexivity|exact IH]. }
  destruct (SolvePulleyStateTensions cl (c3_tension_horizontal c)) as [[[] c1]| |] eqn:E1; cbn [obind fst snd] in H; try discriminate H.
  assert (K1 := Solve_after _ _ _ _ K0 E1).
  set (xr := fmul _ _) in H. destruct (SolvePulleyStateTensions c1 xr) as [[[] c2]| |] eqn:E2; cbn [obind fst snd] in H; try discriminate H.
  set (s0 := mkPulley _ _ _ _ _) in H.
  assert (L0 : looped cl s0).
  { constructor; cbn.
    - exists cl, c1. auto.
    - exists c1, c2. auto.
    - exists c1, xr. auto.
    - lia. }
  destruct (pulley_loop _ _ s0) as [[[] r]| |] eqn:E; cbn [obind fst snd andb] in H; try discriminate H.
  destruct (pu_iter r <? 100)%Z eqn:I; cbn [fst snd] in H; [|discriminate H].
  destruct (loop_looped cl _ _ _ _ L0 E) as (L & C & D). apply Z.ltb_lt in I.
  injection H as <- <-. exists r. split; [exact L|]. split.
  - destruct C as [C|C]; [exact C|]. exfalso. rewrite Z2Nat.id in C by lia. cbn in C. lia.
  - split; [reflexivity|]. split; [reflexivity|]. split; [exact I|]. split.
    + destruct D as [-> | D]; [right|left; exact D]. exists c. repeat split.
    + exists s0, c1. auto.
Qed.

(** ** Sizes and offsets *)
(** Lengths added from [l] on. *)
Fixpoint length_from (l : N) (cs : list (Catenary3d N)) (i : nat) : N :=
  match i with O => l | S i => match nth_error cs i with Some c => (length_from l cs i + c3_Length c)%num | None => length_from l cs i end end.
Lemma length_from_cons : forall l (c : Catenary3d N) cs i, length_from l (c :: cs) (S i) = length_from (l + c3_Length c)%num cs i.
Proof.
  intros l c cs. induction i as [|i IH]; [reflexivity|].
  change (length_from l (c :: cs) (S (S i))) with
    (match nth_error cs i with Some d => (length_from l (c :: cs) (S i) + c3_Length d)%num | None => length_from l (c :: cs) (S i) end).
  rewrite IH. reflexivity.
Qed.
Lemma length_from_0 : forall cs i, length_from #0%num cs i = length_to cs i.
Proof. intros cs. induction i as [|i IH]; cbn [length_from length_to]; [reflexivity|]. rewrite IH. reflexivity. Qed.

Lemma length_all : forall cs l, fold_left (fun l c => (l + c3_Length c)%num) cs l = length_from l cs (length cs).
Proof.
  induction cs as [|c cs IH]; intros l; [reflexivity|]. cbn [fold_left length]. rewrite IH, length_from_cons. reflexivity.
Qed.
Lemma LengthCatenaries_to : forall cs : list (Catenary3d N), LengthCatenaries cs = length_to cs (length cs).
Proof. intros cs. unfold LengthCatenaries. rewrite length_all. apply length_from_0. Qed.

Lemma offsets_facts : forall (c p : list (Catenary3d N)) (lc lp : N), c <> [] -> length p = length c ->
  exists r, offsets_loop lc lp c p = Ok r /\ length r = length c /\ nth_error r (length c - 1) = Some #0%num /\
  forall i, (S i < length c)%nat -> nth_error r i = Some (length_from lc c (S i) - length_from lp p (S i))%num.
Proof.
  induction c as [|c cs IH]; intros p lc lp NE L; [congruence|]. destruct p as [|p ps]; [discriminate L|].
  destruct cs as [|c2 cs].
  - exists [#0%num]. cbn. repeat split. intros i H. exfalso. lia.
  - set (tl := c2 :: cs) in *.
    destruct (IH ps (lc + c3_Length c)%num (lp + c3_Length p)%num ltac:(discriminate) ltac:(cbn [length] in L; lia)) as (r & E & A & B & C).
    change (offsets_loop lc lp (c :: tl) (p :: ps)) with
      (do rest <- offsets_loop (lc + c3_Length c)%num (lp + c3_Length p)%num tl ps;
       Ok ((lc + c3_Length c) - (lp + c3_Length p) :: rest)%num).
    rewrite E. cbn [obind]. eexists. split; [reflexivity|]. cbn [length]. split; [rewrite A; reflexivity|].
    assert (T : (1 <= length tl)%nat) by (cbn; lia). split.
    + replace (S (length tl) - 1)%nat with (S (length tl - 1)) by lia. exact B.
    + intros [|i] H; [reflexivity|]. cbn [nth_error]. rewrite C by lia. rewrite !length_from_cons. reflexivity.
Qed.

Lemma corrections_facts : forall c p : list (Catenary3d N), length p = length c ->
  exists r, corrections_loop c p = Ok r /\ length r = length c /\
  forall i a b, nth_error c i = Some a -> nth_error p i = Some b -> nth_error r i = Some (c3_Sag b - c3_Sag a)%num.
Proof.
  induction c as [|c cs IH]; intros p L.
  - exists []. repeat split. intros [|i] a b H; discriminate H.
  - destruct p as [|p ps]; [discriminate L|]. destruct (IH ps ltac:(cbn [length] in L; lia)) as (r & E & A & B).
    cbn [corrections_loop]. rewrite E. cbn [obind]. eexists. split; [reflexivity|]. cbn [length]. split; [rewrite A; reflexivity|].
    intros [|i] a b H G; cbn [nth_error] in *; [injection H as <-; injection G as <-; reflexivity|apply B; assumption].
Qed.

(** ** After a history *)
Lemma run_corrected : forall (ks : list (PcCall N)) s c p, pc_run Corrector_new ks = Ok s -> corrected s c p ->
  exists l section pts a rest n, last_of pickPc_linecable ks None = Some l /\ CatenaryRulingSpan (lc_payload l) = Ok section /\
  c3_Validate section = true /\ last_of pickPc_points ks None = Some pts /\ pts = a :: rest /\
  c = clipped_spans section a rest /\ pulleyed_of c = Ok (Some (p, n)) /\
  omap fst (ClippingOffsets s) = obind (offsets_loop #0%num #0%num c p) (fun r => Ok (#0%num :: r)) /\
  omap fst (SagCorrections s) = corrections_loop c p.
Proof.
  intros ks s c p H G. destruct (pc_run_current ks Corrector_new s ltac:(intros U; discriminate U) H) as (C & R).
  cbn [pc_linecable pc_points Corrector_new] in R.
  assert (R1 : pc_linecable s = last_of pickPc_linecable ks None) by exact (f_equal (@pc_linecable N) R).
  assert (R2 : pc_points s = last_of pickPc_points ks None) by exact (f_equal (@pc_points N) R).
  destruct (corrected_iff s c p C G) as (n & E & O & S). rewrite R1, R2 in E.
  unfold corrected_of, clipped_of in E.
  destruct (last_of pickPc_linecable ks None) as [l|]; [|discriminate E]. cbn [deref obind] in E.
  destruct (CatenaryRulingSpan (lc_payload l)) as [section| |] eqn:E1; cbn [obind] in E; try discriminate E.
  destruct (c3_Validate section) eqn:E2; [|discriminate E].
  destruct (last_of pickPc_points ks None) as [[|a rest]|]; cbn [deref obind] in E; try discriminate E.
  destruct (pulleyed_of (clipped_spans section a rest)) as [[[p' n']|]| |] eqn:E3; cbn [obind] in E; try discriminate E.
  injection E as <- <- <-. exists l, section, (a :: rest), a, rest, n'. repeat (split; [first [reflexivity|assumption]|]). assumption.
Qed.

Lemma pulleyed_length : forall c p n, pulleyed_of (N := N) c = Ok (Some (p, n)) -> c <> [] /\ length p = length c /\ Forall2 keeps c p.
Proof.
  intros c p n H. destruct (pulleyed_facts c p n H) as (NE & s & [_ _ (cs' & h & A & B & _) _] & _ & -> & _).
  split; [exact NE|]. assert (K := Solve_after _ _ _ _ A B). split; [|exact K].
  clear -K. induction K; cbn [length]; congruence.
Qed.

Lemma offsets_telescope : forall (ks : list (PcCall N)) s c p, pc_run Corrector_new ks = Ok s -> corrected s c p ->
  exists offsets points, omap fst (ClippingOffsets s) = Ok offsets /\
  last_of pickPc_points ks None = Some points /\ length offsets = length points /\ length points = S (length c) /\
  nth_error offsets 0 = Some #0%num /\ nth_error offsets (length c) = Some #0%num /\
  forall i, (0 < i < length c)%nat -> nth_error offsets i = Some (length_to c i - length_to p i)%num.
Proof.
  intros ks s c p H G. destruct (run_corrected ks s c p H G) as (l & section & pts & a & rest & n & _ & _ & _ & P & EP & EC & EU & O & _).
  destruct (pulleyed_length c p n EU) as (NE & L & _).
  destruct (offsets_facts c p #0%num #0%num NE L) as (r & E & A & B & D). rewrite E in O. cbn [obind] in O.
  exists (#0%num :: r), pts. split; [exact O|]. split; [exact P|].
  assert (LP : length pts = S (length c)) by (rewrite EP, EC, clipped_length; reflexivity).
  cbn [length]. split; [congruence|]. split; [exact LP|]. split; [reflexivity|].
  assert (1 <= length c)%nat by (destruct c; [congruence|cbn; lia]). split.
  - replace (length c) with (S (length c - 1)) by lia. exact B.
  - intros [|i] Hi; [lia|]. cbn [nth_error]. rewrite D by lia. rewrite !length_from_0. reflexivity.
Qed.

Lemma corrections_each : forall (ks : list (PcCall N)) s c p, pc_run Corrector_new ks = Ok s -> corrected s c p ->
  exists corrections points, omap fst (SagCorrections s) = Ok corrections /\
  last_of pickPc_points ks None = Some points /\ length points = S (length corrections) /\
  length corrections = length c /\ length corrections = length p /\
  forall i a b, nth_error c i = Some a -> nth_error p i = Some b -> nth_error corrections i = Some (c3_Sag b - c3_Sag a)%num.
Proof.
  intros ks s c p H G. destruct (run_corrected ks s c p H G) as (l & section & pts & a & rest & n & _ & _ & _ & P & EP & EC & EU & _ & O).
  destruct (pulleyed_length c p n EU) as (NE & L & _).
  destruct (corrections_facts c p L) as (r & E & A & B). exists r, pts. split; [congruence|]. split; [exact P|].
  split; [rewrite EP, A, EC, clipped_length; reflexivity|]. split; [exact A|]. split; [congruence|exact B].
Qed.

Lemma clipped_between : forall (ks : list (PcCall N)) s c p, pc_run Corrector_new ks = Ok s -> corrected s c p ->
  exists l section points, last_of pickPc_linecable ks None = Some l /\ CatenaryRulingSpan (lc_payload l) = Ok section /\
  last_of pickPc_points ks None = Some points /\ S (length c) = length points /\
  forall i a b, nth_error points i = Some a -> nth_error points (S i) = Some b ->
  nth_error c i = Some (c3_fresh ADPositive (mkVector3d (p3x b - p3x a) (p3y b - p3y a) (p3z b - p3z a))%num
    (c3_tension_horizontal section) (c3_weight section)).
Proof.
  intros ks s c p H G. destruct (run_corrected ks s c p H G) as (l & section & pts & a & rest & n & A1 & A2 & A3 & P & EP & EC & _).
  exists l, section, pts. split; [exact A1|]. split; [exact A2|]. split; [exact P|].
  split; [rewrite EP, EC, clipped_length; reflexivity|].
  intros i x y X Y. destruct (nth_error c i) as [d|] eqn:D.
  - rewrite EC in D. destruct (clipped_nth _ _ _ _ _ D) as (x' & y' & X' & Y' & ->). rewrite <- EP in X', Y'. congruence.
  - exfalso. apply nth_error_None in D. assert (Q : (S i < length pts)%nat) by (apply nth_error_Some; congruence).
    rewrite EP in Q. cbn [length] in Q. rewrite EC, clipped_length in D. lia.
Qed.
End Lists.

(** ** Real numbers: the tensions at the pulleys *)
Open Scope R_scope.

Lemma validated_solution : forall s : CatenarySolver RNum, settled s -> cs_position s = 0 -> cs_type s = TgTension ->
  fst (cs_Validate s) = true ->
  let h : R := fst (cs_TensionHorizontal (snd (cs_Validate s))) in
  v3y (c3_spacing (cs_catenary s)) = 0 /\
  Rabs (c3_Tension (N := RNum) (c3_fresh ADPositive (c3_spacing (cs_catenary s)) h (c3_weight (cs_catenary s))) 0 - cs_value s) <=
  Vector3d_Magnitude (c3_spacing (cs_catenary s)) / v3x (c3_spacing (cs_catenary s)) / 100.
Proof.
  intros s S P T V h. assert (S' := S). destruct S' as (I & D & _). unfold cs_Validate in V, h.
  destruct (cs_inputs_valid s) eqn:IV; [|discriminate V].
  assert (Y : v3y (c3_spacing (cs_catenary s)) = 0).
  { unfold cs_inputs_valid in IV. repeat (apply andb_true_iff in IV; destruct IV as [IV ?]). rn. apply Reqb_true. assumption. }
  split; [exact Y|].
  destruct (Update_same s (cs_renew s) (renew_kin s I D)) as (A & _ & C). rewrite V in A.
  destruct C as [C|C]; [congruence|]. destruct C as (_ & CH & CU).
  assert (U := Update_true _ V).
  assert (EH : h = c3_tension_horizontal (cs_catenary (snd (cs_Update (cs_renew s))))).
  { unfold h, cs_TensionHorizontal, cs_ensure. rewrite U. exact CH. }
  assert (EF : fst (cs_TensionHorizontal (cs_renew s)) = h).
  { rewrite EH. unfold cs_TensionHorizontal. rewrite renew_ensure. symmetry in A. destruct (cs_Update (cs_renew s)) as [b t]. cbn [fst snd] in *. subst b. reflexivity. }
  assert (NE : h <> -999999).
  { intros E.
    assert (W := Update_valid _ (eq_sym A) (renew_current s)).
    assert (K := Update_kin _ (renew_current s)). destruct K as (_ & _ & _ & K).
    set (sp := c3_spacing (cs_catenary s)) in *. set (w := c3_weight (cs_catenary s)) in *.
    assert (TW : twin_h (cs_catenary (snd (cs_Update (cs_renew s)))) (c3_fresh ADPositive sp h w)).
    { split; [|exact (eq_sym EH)]. eapply twin_trans; [exact K|].
      assert (J : c3_current (c3_fresh (N := RNum) ADPositive sp h w)) by (intros Q; discriminate Q).
      exact (conj (renew_current s) (conj J (conj eq_refl (conj eq_refl eq_refl)))). }
    assert (Q := twin_answer _ _ Q3Validate TW). cbn [c3_answer] in Q. injection Q as Q. rewrite Q in W.
    destruct (cat_Validate _ _ h W) as (_ & Hpos & _). lra. }
  unfold cs_renew in EF.
  assert (F := first_answer (c3_spacing (cs_catenary s)) (c3_weight (cs_catenary s)) (cs_position s) (cs_type s) (cs_value s)).
  cbv zeta in F. rewrite EF in F. destruct (F NE) as (_ & _ & M). rewrite T, P in M.
  destruct M as (_ & M). unfold quantity in M. destruct (Req_EM_T 0 (-1)) as [Q|Q]; [lra|]. apply M. right. left. reflexivity.
Qed.

Lemma spans_pairs : forall w cs (solver : CatenarySolver RNum) prev ds, settled solver -> cs_position solver = 0 -> cs_type solver = TgTension ->
  c3_weight (cs_catenary solver) = w -> Forall (fun c => c3_weight c = w) cs -> solve_spans solver prev cs = (true, ds) ->
  forall i a b, nth_error (prev :: ds) i = Some a -> nth_error ds i = Some b -> pulley_pair a b /\ v3y (c3_spacing b) = 0.
Proof.
  intros w. induction cs as [|c cs IH]; intros solver prev ds S P T W FW H i a b A B; cbn [solve_spans] in H.
  - injection H as <-. destruct i; discriminate B.
  - set (s1 := cs_set_value _ _) in H.
    assert (S1 : settled s1) by exact (settled_call _ (ScSetValue _) (settled_call solver (ScSetSpacing (c3_spacing c)) S)).
    assert (W1 : c3_weight (cs_catenary s1) = w) by exact W.
    assert (P1 : cs_position s1 = 0) by exact P. assert (T1 : cs_type s1 = TgTension) by exact T.
    assert (Q := validated_solution s1 S1 P1 T1).
    assert (S2 := settled_call _ ScTensionHorizontal (settled_call _ ScValidate S1)). cbn [cs_call] in S2.
    destruct (inputsS [ScValidate; ScTensionHorizontal] s1 (proj1 S1)) as (I1 & _ & I3 & _ & I5).
    unfold cs_run in I1, I3, I5. cbn [fold_left cs_call last_of pickS_position pickS_type pickS_weight] in I1, I3, I5.
    destruct (cs_Validate s1) as [[] s2]; [|discriminate H]. cbn [fst snd] in *. specialize (Q eq_refl). cbv zeta in Q.
    destruct (cs_TensionHorizontal s2) as [h s3]. cbn [fst snd] in *.
    destruct (solve_spans s3 (c3_set_tension c h) cs) as [ok ds'] eqn:E. injection H as -> <-.
    inversion FW as [|? ? WC FW']; subst.
    destruct i as [|i]; cbn [nth_error] in A, B.
    + injection A as <-. injection B as <-. destruct Q as (Y & Q). split; [|exact Y].
      unfold pulley_pair. change (c3_spacing (c3_set_tension c h)) with (c3_spacing c).
      change (c3_weight (c3_set_tension c h)) with (c3_weight c). rewrite WC.
      match goal with |- Rabs (_ - ?v) <= _ => replace v with (cs_value s1) by (unfold s1; cbn [cs_value cs_set_value]; rn; reflexivity) end.
      exact Q.
    + apply (IH s3 (c3_set_tension c h) ds' S2 ltac:(congruence) ltac:(congruence) ltac:(congruence) FW' E i a b A B).
Qed.

Lemma keeps_all : forall cs ds : list (Catenary3d RNum), Forall2 keeps cs ds ->
  map c3_spacing ds = map c3_spacing cs /\ map c3_weight ds = map c3_weight cs.
Proof.
  intros cs ds H. induction H as [|a b cs ds K _ (A & B)]; [auto|]. cbn [map]. rewrite A, B.
  destruct K as [-> | (h & ->)]; auto.
Qed.

Lemma same_weights : forall w (cs ds : list (Catenary3d RNum)), Forall2 keeps cs ds -> Forall (fun c => c3_weight c = w) cs -> Forall (fun c => c3_weight c = w) ds.
Proof.
  intros w cs ds H. induction H as [|a b cs ds K _ IH]; intros F; [constructor|]. inversion F; subst. constructor; [|auto].
  destruct K as [-> | (h & ->)]; reflexivity.
Qed.

Lemma solved_line : forall w clipped cs' h cs, Forall (fun c => c3_weight c = w) clipped -> Forall2 keeps clipped cs' ->
  SolvePulleyStateTensions (N := RNum) cs' h = Ok (true, cs) -> pulley_line clipped h cs.
Proof.
  intros w clipped cs' h cs W K E. destruct (keeps_all _ _ (Solve_after _ _ _ _ K E)) as (A & B).
  assert (W' := same_weights w _ _ K W).
  constructor; [exact A|exact B| |].
  - destruct cs' as [|c cs']; [discriminate E|]. cbn [SolvePulleyStateTensions] in E.
    destruct (solve_spans _ _ _) as [ok ds]. injection E as _ <-. eexists. split; [reflexivity|]. reflexivity.
  - destruct cs' as [|c cs']; [discriminate E|]. cbn [SolvePulleyStateTensions] in E. set (solver := cs_set_weight _ _) in E.
    destruct (solve_spans _ _ _) as [ok ds] eqn:Q. injection E as -> <-. inversion W' as [|? ? WC W'']; subst.
    intros i a b X Y. cbn [nth_error] in Y. refine (spans_pairs (c3_weight c) cs' solver _ ds _ _ eq_refl eq_refl W'' Q i a b X Y).
    + exact (settled_call _ (ScSetWeight (c3_weight c)) (settled_call _ (ScSetType TgTension) (settled_call _ (ScSetPosition _) settled_default))).
    + unfold solver. cbn. lra.
Qed.

Lemma clipped_weights : forall (section : Catenary3d RNum) ps a, Forall (fun c => c3_weight c = c3_weight section) (clipped_spans section a ps).
Proof. intros section. induction ps as [|b ps IH]; intros a; constructor; [reflexivity|apply IH]. Qed.

(** After a pass the current tension is one of the two tensions of the secant, or the length
    is the goal. *)
Definition at_end (goal : R) (s : Pulley RNum) : Prop :=
  p2x (pu_current s) = p2x (pu_left s) \/ p2x (pu_current s) = p2x (pu_right s) \/ p2y (pu_current s) = goal.

Lemma pass_end : forall (goal : R) s s', pulley_pass (N := RNum) goal s = Ok (true, s') -> at_end goal s'.
Proof.
  intros goal s s' H. unfold pulley_pass in H. cbv zeta in H. set (x := fadd _ _) in H.
  destruct (SolvePulleyStateTensions (pu_catenaries s) x) as [[[] cs]| |]; cbn [obind] in H; try discriminate H.
  set (y := LengthCatenaries cs) in H. clearbody x y.
  change (@fltb RNum) with Rltb in H. destruct (Rltb x (p2x (pu_left s))) eqn:A.
  { injection H as <-. left. reflexivity. }
  destruct (Rltb (p2x (pu_left s)) x) eqn:B, (Rltb x (p2x (pu_right s))) eqn:C; cbn [andb] in H.
  - destruct (Rltb y goal) eqn:D; [injection H as <-; right; left; reflexivity|].
    destruct (Rltb goal y) eqn:E; [injection H as <-; left; reflexivity|].
    injection H as <-. right. right. cbn [pu_current p2y]. apply Rltb_false in D. apply Rltb_false in E. lra.
  - destruct (Rltb (p2x (pu_right s)) x) eqn:D; [injection H as <-; right; left; reflexivity|].
    injection H as <-. right. left. cbn [pu_current pu_right p2x]. apply Rltb_false in C. apply Rltb_false in D. lra.
  - destruct (Rltb (p2x (pu_right s)) x) eqn:D; [injection H as <-; right; left; reflexivity|].
    injection H as <-. left. cbn [pu_current pu_left p2x]. apply Rltb_false in A. apply Rltb_false in B. lra.
  - destruct (Rltb (p2x (pu_right s)) x) eqn:D; [injection H as <-; right; left; reflexivity|].
    injection H as <-. left. cbn [pu_current pu_left p2x]. apply Rltb_false in A. apply Rltb_false in B. lra.
Qed.

Lemma loop_end : forall (goal : R) fuel s s', pulley_loop (N := RNum) goal fuel s = Ok (true, s') -> s' = s \/ at_end goal s'.
Proof.
  intros goal. induction fuel as [|fuel IH]; intros s s' H; cbn [pulley_loop] in H; [injection H as <-; auto|].
  destruct (pulley_continues (N := RNum) goal s); [|injection H as <-; auto].
  destruct (pulley_pass (N := RNum) goal s) as [[[] t]| |] eqn:E; cbn [obind] in H; try discriminate H.
  destruct (IH t s' H) as [-> | A]; right; [exact (pass_end _ _ _ E)|exact A].
Qed.

(** The pulley state: a cable on pulleys whose length is that of the clipped one within 0.01,
    unless two solved tensions, one of them the tension of the answer, are within 0.1 of each other. *)
Lemma pulleyed_matches : forall (ks : list (PcCall RNum)) s c p, pc_run Corrector_new ks = Ok s -> corrected s c p ->
  0 <= total_length c ->
  exists h : R, pulley_line c h p /\
  (Rabs (total_length p - total_length c) <= 1 / 100 \/
   exists k q, Rabs (h - k) <= 1 / 10 /\ pulley_line c k q).
Proof.
  intros ks s c p H G POS. destruct (run_corrected ks s c p H G) as (l & section & pts & a & rest & n & _ & _ & _ & _ & _ & EC & EU & _ & _).
  assert (W := clipped_weights section rest a). rewrite <- EC in W.
  destruct (pulleyed_facts c p n EU) as (_ & q & [DL DR (cs' & h & K & S & C) _] & STOP & EP & EN & IT & D & s0 & cs0 & LO & K0 & S0).
  exists h. assert (PL : pulley_line c h p) by (rewrite EP; exact (solved_line _ _ _ _ _ W K S)). split; [exact PL|].
  unfold pulley_continues in STOP. apply andb_false_iff in STOP. destruct STOP as [STOP|STOP]; [|exfalso; lia].
  assert (LC : total_length c = LengthCatenaries c) by (symmetry; exact (LengthCatenaries_to (N := RNum) _)).
  assert (LP : total_length p = LengthCatenaries p) by (symmetry; exact (LengthCatenaries_to (N := RNum) _)).
  apply andb_false_iff in STOP. destruct STOP as [STOP|STOP].
  - rn. apply Rltb_false in STOP. rewrite flit_R in STOP. simpl in STOP.
    destruct DL as (l1 & l2 & L1 & L2 & _). destruct DR as (r1 & r2 & R1 & R2 & _).
    assert (NR : p2x (pu_right q) = h -> exists k q0, Rabs (h - k) <= 1 / 10 /\ pulley_line c k q0).
    { intros E. exists (p2x (pu_left q)), l2. split; [rewrite <- E; rewrite Rabs_minus_sym; lra|]. exact (solved_line _ _ _ _ _ W L1 L2). }
    assert (NL : p2x (pu_left q) = h -> exists k q0, Rabs (h - k) <= 1 / 10 /\ pulley_line c k q0).
    { intros E. exists (p2x (pu_right q)), r2. split; [rewrite <- E; lra|]. exact (solved_line _ _ _ _ _ W R1 R2). }
    destruct (loop_end _ _ _ _ LO) as [-> | AE].
    + right. apply NR. destruct (pl_first _ _ _ PL) as (f & F1 & F2).
      destruct (pl_first _ _ _ (solved_line _ _ _ _ _ W K0 S0)) as (g & G1 & G2). rewrite <- EP in G1. congruence.
    + destruct C as [C|(C & E)]; [|right; apply NR; auto].
      destruct AE as [AE|[AE|AE]]; cbn [p2x p2y] in AE; rewrite C in AE; cbn [p2x p2y] in AE;
        [right; apply NL; auto|right; apply NR; auto|].
      left. rewrite LP, LC, EP, AE. replace (LengthCatenaries c - LengthCatenaries c) with 0 by ring. rewrite Rabs_R0. lra.
  - rn. apply Rltb_false in STOP. rewrite flit_R in STOP. simpl in STOP.
    destruct D as [(h' & D)|(c0 & _ & D & _)]; rewrite D in STOP.
    + left. cbn [p2y] in STOP. rewrite LP, LC. lra.
    + exfalso. cbn [p2y Point2d_default] in STOP. unfold ferr in STOP. rn. rewrite <- LC in STOP.
      revert STOP. unfold Rabs. destruct (Rcase_abs _); lra.
Qed.
