(** Proofs about the helper functions. *)
From Coq Require Import ZArith Bool List Ascii Lia Reals Lra.
From Verif Require Import Num NumFacts ModelBase ModelHelper SpecHelper ProofReal.
Import ListNotations.
Open Scope Z_scope.

Section Compare.
Variable key : ascii -> Z.
Notation cmp := (CompareStrings key).

Lemma cmp_cases : forall s1 s2,
  (cmp s1 s2 = 1 /\ dict_less key s2 s1) \/
  (cmp s1 s2 = -1 /\ dict_less key s1 s2 /\ ~ fold_prefix key s1 s2) \/
  (cmp s1 s2 = 0 /\ fold_prefix key s1 s2).
Proof.
  induction s1 as [|c1 r1 IH]; intros s2.
  - right; right. split.
    + cbn. destruct s2; reflexivity.
    + exists (map key s2). reflexivity.
  - destruct s2 as [|c2 r2].
    + left. split; [reflexivity|constructor].
    + cbn [CompareStrings]. destruct (key c1 <? key c2) eqn:L1; [|destruct (key c2 <? key c1) eqn:L2].
      * apply Z.ltb_lt in L1. right; left. split; [reflexivity|]. split; [apply dl_here; assumption|].
        intros [s H]. cbn in H. injection H as H _. lia.
      * apply Z.ltb_lt in L2. left. split; [reflexivity|apply dl_here; assumption].
      * apply Z.ltb_ge in L1. apply Z.ltb_ge in L2. assert (E : key c1 = key c2) by lia.
        destruct (IH r2) as [[H D]|[[H [D P]]|[H [s P]]]].
        -- left. split; [assumption|]. apply dl_later; [symmetry; assumption|assumption].
        -- right; left. split; [assumption|]. split; [apply dl_later; assumption|].
           intros [s Q]. apply P. cbn in Q. injection Q as _ Q. exists s. assumption.
        -- right; right. split; [assumption|]. exists s. cbn. rewrite P, E. reflexivity.
Qed.

Lemma dict_less_asym : forall s1 s2, dict_less key s1 s2 -> ~ dict_less key s2 s1.
Proof.
  intros s1 s2 H. induction H; intros H'; inversion H'; subst; try lia. auto.
Qed.

Lemma fold_prefix_not_greater : forall s1 s2, fold_prefix key s1 s2 -> ~ dict_less key s2 s1.
Proof.
  intros s1 s2 [s P] D. revert s P. induction D as [c r|c1 r1 c2 r2 L|c1 r1 c2 r2 E D IH]; intros s P; cbn in P.
  - discriminate.
  - injection P as P _. lia.
  - injection P as _ P. exact (IH s P).
Qed.

(** What CompareStrings computes. *)
Lemma cmp_spec : forall s1 s2,
  (cmp s1 s2 = 1 <-> dict_less key s2 s1) /\
  (cmp s1 s2 = 0 <-> fold_prefix key s1 s2) /\
  (cmp s1 s2 = -1 <-> dict_less key s1 s2 /\ ~ fold_prefix key s1 s2) /\
  (cmp s1 s2 = 1 \/ cmp s1 s2 = 0 \/ cmp s1 s2 = -1).
Proof.
  intros s1 s2. generalize (cmp_cases s1 s2). generalize (fold_prefix_not_greater s1 s2).
  generalize (dict_less_asym s1 s2). intros A B C.
  repeat split; intros; try tauto; destruct C as [[E C]|[[E C]|[E C]]]; try lia; tauto.
Qed.

Lemma fold_prefix_length : forall s1 s2, length s1 = length s2 ->
  (fold_prefix key s1 s2 <-> same_fold key s1 s2).
Proof.
  intros s1 s2 L. unfold fold_prefix, same_fold. split.
  - intros [s H]. assert (length s = 0%nat).
    { apply (f_equal (@length _)) in H. rewrite app_length, !map_length in H. lia. }
    destruct s; [|discriminate]. rewrite app_nil_r in H. symmetry; assumption.
  - intros H. exists []. rewrite app_nil_r. symmetry; assumption.
Qed.

Lemma cmp_equal_length : forall s1 s2, length s1 = length s2 ->
  cmp s1 s2 = - cmp s2 s1 /\ (cmp s1 s2 = 0 <-> same_fold key s1 s2).
Proof.
  intros s1 s2 L. destruct (cmp_spec s1 s2) as [G [Z [S A]]]. destruct (cmp_spec s2 s1) as [G' [Z' [S' A']]].
  split; [|rewrite Z; apply fold_prefix_length; assumption].
  assert (P : fold_prefix key s1 s2 <-> fold_prefix key s2 s1).
  { rewrite !fold_prefix_length by congruence. unfold same_fold. split; intros E; symmetry; exact E. }
  destruct A as [A|[A|A]].
  - assert (cmp s2 s1 = -1); [|lia]. apply S'. apply G in A. split; [assumption|].
    intros Q. apply P in Q. exact (fold_prefix_not_greater _ _ Q A).
  - assert (cmp s2 s1 = 0); [|lia]. apply Z', P, Z. assumption.
  - assert (cmp s2 s1 = 1); [|lia]. apply G'. apply S in A. tauto.
Qed.

Lemma cmp_fold : forall s1 s1' s2 s2', same_fold key s1 s1' -> same_fold key s2 s2' ->
  cmp s1 s2 = cmp s1' s2'.
Proof.
  induction s1 as [|c1 r1 IH]; intros s1' s2 s2' H1 H2; destruct s1' as [|c1' r1']; try discriminate H1.
  - destruct s2, s2'; try discriminate H2; cbn; reflexivity.
  - unfold same_fold in *. cbn in H1. injection H1 as E1 H1.
    destruct s2 as [|c2 r2], s2' as [|c2' r2']; try discriminate H2.
    + cbn. reflexivity.
    + cbn in H2. injection H2 as E2 H2. cbn. rewrite E1, E2.
      rewrite (IH r1' r2 r2' H1 H2). reflexivity.
Qed.

Lemma dict_less_trans : forall a b c, dict_less key a b -> dict_less key b c -> dict_less key a c.
Proof.
  intros a b c H. revert c. induction H; intros c' H'; inversion H'; subst;
    first [apply dl_prefix | apply dl_here; lia | apply dl_later; [lia|auto]].
Qed.

(** "Greater" is transitive. *)
Lemma cmp_trans : forall a b c, cmp a b = 1 -> cmp b c = 1 -> cmp a c = 1.
Proof.
  intros a b c H1 H2. apply cmp_spec. apply cmp_spec in H1. apply cmp_spec in H2.
  eapply dict_less_trans; eassumption.
Qed.
End Compare.

(** ** Parse *)
Lemma scan_spec : forall d s item rest eof, getline_scan s d = (item, rest, eof) ->
  ~ In d item /\
  ((eof = false /\ s = item ++ d :: rest) \/ (eof = true /\ rest = [] /\ s = item)).
Proof.
  intros d s. induction s as [|c r IH]; intros item rest eof H; cbn in H.
  - injection H as <- <- <-. split; [exact (fun x => x)|]. right. auto.
  - destruct (Ascii.eqb c d) eqn:E.
    + apply Ascii.eqb_eq in E. injection H as <- <- <-. subst. split; [exact (fun x => x)|]. left. auto.
    + apply Ascii.eqb_neq in E. destruct (getline_scan r d) as [[i rs] ef] eqn:G. injection H as <- <- <-.
      destruct (IH _ _ _ eq_refl) as [N C]. split.
      * intros [X|X]; [congruence|auto].
      * destruct C as [[-> ->]|[-> [-> ->]]]; [left|right]; auto.
Qed.

(** Parsing an unread rest: either every item is followed by the delimiter, or the
    last one is not and is not empty. *)
Lemma Parse_loop_spec : forall d fuel s, (length s < fuel)%nat ->
  Forall (fun i => ~ In d i) (Parse_loop fuel s false d) /\
  (s = terminated d (Parse_loop fuel s false d) \/
   exists items i, i <> [] /\ Parse_loop fuel s false d = items ++ [i] /\ s = terminated d items ++ i).
Proof.
  intros d fuel. induction fuel as [|fuel IH]; intros s L; [lia|].
  cbn [Parse_loop]. unfold getline. destruct s as [|c r]; [split; [constructor|left; reflexivity]|].
  destruct (getline_scan (c :: r) d) as [[item rest] eof] eqn:G.
  destruct (scan_spec _ _ _ _ _ G) as [N [[-> E]|[-> [-> E]]]].
  - destruct (IH rest) as [F D].
    { rewrite E in L. rewrite app_length in L. cbn in L. lia. }
    split; [constructor; assumption|]. rewrite E. destruct D as [D|(items & i & Ni & P & D)].
    + left. cbn [terminated flat_map]. rewrite <- app_assoc. cbn. f_equal. f_equal. exact D.
    + right. exists (item :: items), i. split; [assumption|]. split; [cbn; rewrite P; reflexivity|].
      cbn [terminated flat_map]. rewrite <- !app_assoc. cbn. f_equal. f_equal. exact D.
  - assert (X : Parse_loop fuel [] true d = []) by (destruct fuel; reflexivity). rewrite X.
    split; [constructor; [assumption|constructor]|]. right. exists [], item.
    split; [intros ->; discriminate|]. split; [reflexivity|]. rewrite E. reflexivity.
Qed.

Lemma Parse_spec : forall d s,
  Forall (fun i => ~ In d i) (Parse s d) /\
  (s = terminated d (Parse s d) \/
   exists items i, i <> [] /\ Parse s d = items ++ [i] /\ s = terminated d items ++ i).
Proof. intros d s. apply Parse_loop_spec. lia. Qed.

Lemma join_snoc : forall d items i, join d (items ++ [i]) = terminated d items ++ i.
Proof.
  intros d items i. induction items as [|x r IH]; [reflexivity|].
  assert (J : forall y l, l <> [] -> join d (y :: l) = y ++ d :: join d l).
  { intros y l H. destruct l; [congruence|reflexivity]. }
  cbn [app]. rewrite J by (destruct r; discriminate). rewrite IH.
  cbn [terminated flat_map]. rewrite <- !app_assoc. reflexivity.
Qed.

Lemma terminated_app : forall d a b, terminated d (a ++ b) = terminated d a ++ terminated d b.
Proof. intros. unfold terminated. apply flat_map_app. Qed.

Lemma Parse_join : forall d s, Parse s d <> [] ->
  s = join d (Parse s d) \/ s = join d (Parse s d) ++ [d].
Proof.
  intros d s H. destruct (Parse_spec d s) as [_ [E|(items & i & Ni & P & E)]].
  - right. destruct (exists_last H) as [items [i P]]. rewrite P in *. rewrite join_snoc.
    rewrite E at 1. rewrite terminated_app. unfold terminated at 2. cbn. rewrite app_nil_r, app_assoc. reflexivity.
  - left. rewrite P, join_snoc. exact E.
Qed.

Lemma Parse_empty : forall d s, Parse s d = [] <-> s = [].
Proof.
  intros d s. split.
  - intros H. destruct (Parse_spec d s) as [_ [E|(items & i & Ni & P & E)]].
    + rewrite H in E. exact E.
    + rewrite H in P. destruct items; discriminate.
  - intros ->. reflexivity.
Qed.

(** ** Uniqueness: items without the delimiter are determined by the string. *)
Lemma split_first : forall d (a b : list ascii) x y, ~ In d a -> ~ In d b ->
  a ++ d :: x = b ++ d :: y -> a = b /\ x = y.
Proof.
  intros d a. induction a as [|c r IH]; intros b x y Na Nb H; destruct b as [|c' r'].
  - injection H as ->. auto.
  - cbn in H. injection H as -> _. exfalso. apply Nb. left. reflexivity.
  - cbn in H. injection H as -> _. exfalso. apply Na. left. reflexivity.
  - cbn in H. injection H as -> H. destruct (IH r' x y) as [-> ->]; auto.
    + intros X; apply Na; right; assumption.
    + intros X; apply Nb; right; assumption.
Qed.

Lemma no_delim_split : forall d (a b : list ascii) y, ~ In d a -> a <> b ++ d :: y.
Proof. intros d a b y N ->. apply N. apply in_or_app. right. left. reflexivity. Qed.

Lemma terminated_inj : forall d l l' t t',
  Forall (fun i => ~ In d i) l -> Forall (fun i => ~ In d i) l' -> ~ In d t -> ~ In d t' ->
  terminated d l ++ t = terminated d l' ++ t' -> l = l' /\ t = t'.
Proof.
  intros d l. induction l as [|x r IH]; intros l' t t' F F' Nt Nt' H; destruct l' as [|x' r']; cbn [terminated flat_map app] in H.
  - auto.
  - exfalso. rewrite <- !app_assoc in H. cbn in H. exact (no_delim_split d t x' _ Nt H).
  - exfalso. rewrite <- !app_assoc in H. cbn in H. exact (no_delim_split d t' x _ Nt' (Logic.eq_sym H)).
  - rewrite <- !app_assoc in H. cbn in H. inversion F; inversion F'; subst.
    destruct (split_first d x x' _ _ ltac:(assumption) ltac:(assumption) H) as [-> H'].
    destruct (IH r' t t') as [-> ->]; auto.
Qed.

Lemma Parse_of_terminated : forall d items, Forall (fun i => ~ In d i) items ->
  Parse (terminated d items) d = items.
Proof.
  intros d items F. destruct (Parse_spec d (terminated d items)) as [F' [E|(l & i & Ni & P & E)]].
  - symmetry. apply (terminated_inj d _ _ [] []); auto; rewrite ?app_nil_r; auto.
  - exfalso. rewrite P in F'. apply Forall_app in F'. destruct F' as [Fl Fi]. inversion Fi; subst.
    destruct (terminated_inj d items l [] i) as [_ X]; auto; [rewrite app_nil_r; exact E].
Qed.

Lemma Parse_of_join : forall d items i, Forall (fun i => ~ In d i) items -> ~ In d i -> i <> [] ->
  Parse (join d (items ++ [i])) d = items ++ [i].
Proof.
  intros d items i F N Ni. rewrite join_snoc.
  destruct (Parse_spec d (terminated d items ++ i)) as [F' [E|(l & j & Nj & P & E)]].
  - exfalso. destruct (terminated_inj d items (Parse (terminated d items ++ i) d) i []) as [_ X]; auto.
    rewrite app_nil_r. exact E.
  - rewrite P. rewrite P in F'. apply Forall_app in F'. destruct F' as [Fl Fi]. inversion Fi; subst.
    destruct (terminated_inj d items l i j) as [-> ->]; auto.
Qed.

(** ** Round and LinearY *)
Open Scope R_scope.

Lemma Rround_spec : forall x, exists k : Z, Rround_c x = IZR k /\ Rabs (x - IZR k) <= / 2.
Proof.
  intros x. unfold Rround_c. destruct (Rle_dec 0 x).
  - exists (Int_part (x + / 2)). split; [reflexivity|].
    destruct (base_Int_part (x + / 2)). apply Rabs_le. lra.
  - exists (- Int_part (- x + / 2))%Z. split; [rewrite opp_IZR; reflexivity|]. rewrite opp_IZR.
    destruct (base_Int_part (- x + / 2)). apply Rabs_le. lra.
Qed.

Lemma Rround_tie : forall x (k : Z), x = IZR k + / 2 -> Rround_c x = IZR (if Z_lt_dec k 0 then k else k + 1).
Proof.
  intros x k ->. unfold Rround_c. destruct (Rle_dec 0 (IZR k + / 2)) as [L|L]; destruct (Z_lt_dec k 0) as [M|M].
  - exfalso. apply (IZR_le (k + 1) 0) in M || (assert (k <= -1)%Z by lia; apply IZR_le in H; lra).
  - replace (IZR k + / 2 + / 2) with (IZR (k + 1)) by (rewrite plus_IZR; lra).
    rewrite Int_part_IZR. reflexivity.
  - replace (- (IZR k + / 2) + / 2) with (IZR (- k)) by (rewrite opp_IZR; lra).
    rewrite Int_part_IZR, opp_IZR. ring.
  - exfalso. apply L. assert (0 <= k)%Z by lia. apply IZR_le in H. lra.
Qed.

Lemma Rround_Z : forall k, Rround_c (IZR k) = IZR k.
Proof.
  intros k. destruct (Rround_spec (IZR k)) as [j [-> H]].
  rewrite <- minus_IZR in H. rewrite <- abs_IZR in H.
  assert (Z.abs (k - j) < 1)%Z by (apply lt_IZR; lra). f_equal. lia.
Qed.

Lemma pow10_pos : forall p, 0 < powerRZ 10 p.
Proof. intros. apply powerRZ_lt. lra. Qed.

Lemma Round_R : forall x p, Round (N := RNum) x p = Rround_c (x * powerRZ 10 p) / powerRZ 10 p.
Proof. intros x p. unfold Round. rn. rewrite Rpow_c_Z. reflexivity. Qed.

Lemma Round_grid : forall (x : R) p, exists k : Z,
  Round (N := RNum) x p = IZR k * powerRZ 10 (- p) /\
  Rabs (x - Round (N := RNum) x p) <= powerRZ 10 (- p) / 2.
Proof.
  intros x p. generalize (pow10_pos p). intros P.
  destruct (Rround_spec (x * powerRZ 10 p)) as [k [E H]]. exists k. rewrite Round_R, E.
  rewrite powerRZ_neg'. split; [reflexivity|].
  replace (x - IZR k / powerRZ 10 p) with ((x * powerRZ 10 p - IZR k) * / powerRZ 10 p) by (field; lra).
  rewrite Rabs_mult, (Rabs_pos_eq (/ _)) by (apply Rlt_le, Rinv_0_lt_compat; assumption).
  unfold Rdiv. rewrite (Rmult_comm (/ powerRZ 10 p) (/ 2)). apply Rmult_le_compat_r; [|exact H].
  apply Rlt_le, Rinv_0_lt_compat; assumption.
Qed.

Lemma Round_fixed : forall (k : Z) p, Round (N := RNum) (IZR k * powerRZ 10 (- p)) p = IZR k * powerRZ 10 (- p).
Proof.
  intros k p. generalize (pow10_pos p). intros P. rewrite Round_R, powerRZ_neg'.
  replace (IZR k * / powerRZ 10 p * powerRZ 10 p) with (IZR k) by (field; lra).
  rewrite Rround_Z. reflexivity.
Qed.

Lemma Round_idem : forall (x : R) p, Round (N := RNum) (Round (N := RNum) x p) p = Round (N := RNum) x p.
Proof. intros x p. destruct (Round_grid x p) as [k [-> _]]. apply Round_fixed. Qed.

(** Halfway cases go away from zero. *)
Lemma Round_tie : forall (k : Z) p, 
  Round (N := RNum) ((IZR k + / 2) * powerRZ 10 (- p)) p =
  IZR (if Z_lt_dec k 0 then k else k + 1) * powerRZ 10 (- p).
Proof.
  intros k p. generalize (pow10_pos p). intros P. rewrite Round_R, powerRZ_neg'.
  replace ((IZR k + / 2) * / powerRZ 10 p * powerRZ 10 p) with (IZR k + / 2) by (field; lra).
  rewrite (Rround_tie _ k) by reflexivity. reflexivity.
Qed.

Lemma LinearY_spec : forall x1 y1 x2 y2 : R, x1 <> x2 ->
  LinearY (N := RNum) x1 y1 x2 y2 x1 = y1 /\ LinearY (N := RNum) x1 y1 x2 y2 x2 = y2 /\
  forall a b t : R, LinearY (N := RNum) x1 y1 x2 y2 ((1 - t) * a + t * b) =
    (1 - t) * LinearY (N := RNum) x1 y1 x2 y2 a + t * LinearY (N := RNum) x1 y1 x2 y2 b.
Proof.
  intros x1 y1 x2 y2 H. unfold LinearY. rn. assert (x2 - x1 <> 0) by lra.
  split; [rfield; lra|]. split; [rfield; lra|]. intros. rfield; lra.
Qed.
