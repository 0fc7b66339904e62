(** Reading of numerals: IsNumeric accepts the numerals that fit a double. *)
From Coq Require Import ZArith Reals Bool List Ascii Lia Lra.
From Flocq Require Import Core.
From Verif Require Import Num ModelHelper ModelText SpecText.
Import ListNotations.
Open Scope Z_scope.

Definition isd (c : ascii) : bool := match digit_value c with Some _ => true | None => false end.
Definition val (c : ascii) : Z := match digit_value c with Some d => d | None => 0 end.
Definition issign (c : ascii) : bool := Ascii.eqb c "+" || Ascii.eqb c "-".
Definition ise (c : ascii) : bool := Ascii.eqb c "e" || Ascii.eqb c "E".
Definition point := "."%char.

Definition starts (p : ascii -> bool) (s : str) : bool := match s with [] => false | c :: _ => p c end.

Lemma digit_value_digit : forall c d, digit_value c = Some d -> digit c d.
Proof.
  intros c d. unfold digit_value, digit.
  destruct c as [[] [] [] [] [] [] [] []]; vm_compute; intros H;
    first [discriminate H | injection H as <-; split; [discriminate|reflexivity]].
Qed.

Lemma digit_digit_value : forall c d, digit c d -> digit_value c = Some d.
Proof.
  intros c d [A B]. assert (L : (Z.to_nat d < 10)%nat).
  { apply (nth_error_Some ten (Z.to_nat d)). rewrite B. discriminate. }
  rewrite <- (Z2Nat.id d A). revert B L. generalize (Z.to_nat d). intros k B L.
  do 10 (destruct k as [|k]; [cbn in B; injection B as <-; reflexivity|]). lia.
Qed.

Lemma isd_val : forall c, isd c = true -> digit c (val c).
Proof. intros c. unfold isd, val. destruct (digit_value c) eqn:E; [intros _; apply digit_value_digit; exact E|discriminate]. Qed.

Lemma digit_isd : forall c d, digit c d -> isd c = true /\ val c = d.
Proof. intros c d H. apply digit_digit_value in H. unfold isd, val. rewrite H. split; reflexivity. Qed.

(** ** Values of digits *)

Definition total (s : str) : Z := digits_value (map val s).

Lemma total_snoc : forall s c, total (s ++ [c]) = 10 * total s + val c.
Proof. intros. unfold total, digits_value. rewrite map_app, fold_left_app. reflexivity. Qed.

Lemma digits_total : forall s n, digits s n -> forallb isd s = true /\ n = total s.
Proof.
  intros s n H. induction H as [|s n c d H [I1 I2] D]; [split; reflexivity|].
  apply digit_isd in D. destruct D as [D1 D2].
  rewrite forallb_app, total_snoc. cbn [forallb]. rewrite I1, D1. split; [reflexivity|lia].
Qed.

Lemma total_digits : forall s, forallb isd s = true -> digits s (total s).
Proof.
  intros s. induction s as [|c s IH] using rev_ind; intros H; [constructor|].
  rewrite forallb_app in H. apply andb_prop in H. destruct H as [A B]. cbn in B.
  rewrite andb_true_r in B. rewrite total_snoc. constructor; [apply IH; exact A|apply isd_val; exact B].
Qed.

Lemma fold_total : forall s a, fold_left (fun a d => 10 * a + d) (map val s) a =
  a * 10 ^ Z.of_nat (List.length s) + total s.
Proof.
  intros s. induction s as [|c s IH] using rev_ind; intros a; [cbn; unfold total; cbn; lia|].
  rewrite map_app, fold_left_app, IH, total_snoc, app_length. cbn [map fold_left List.length].
  rewrite Nat2Z.inj_add, Z.pow_add_r by lia. cbn [Z.of_nat]. change (10 ^ Z.of_nat 1) with 10. ring.
Qed.

Lemma total_cons0 : forall s, total ("0"%char :: s) = total s.
Proof. reflexivity. Qed.

Lemma total_app : forall a b, total (a ++ b) = total a * 10 ^ Z.of_nat (List.length b) + total b.
Proof. intros. unfold total at 1, digits_value. rewrite map_app, fold_left_app, fold_total. reflexivity. Qed.

Lemma val_bound : forall c, 0 <= val c <= 9.
Proof.
  intros c. unfold val, digit_value. destruct (_ && _) eqn:E; [|lia].
  apply andb_prop in E. destruct E as [A B]. apply Z.leb_le in A, B. lia.
Qed.

Lemma total_nonneg : forall s, 0 <= total s.
Proof.
  intros s. induction s as [|c s IH] using rev_ind; [unfold total; cbn; lia|].
  rewrite total_snoc. pose proof (val_bound c). lia.
Qed.

(** ** Scanning *)

Lemma scan_digits_run : forall s r, forallb isd s = true -> starts isd r = false ->
  scan_digits (s ++ r) = (map val s, r).
Proof.
  induction s as [|c s IH]; intros r A B.
  - cbn. destruct r as [|c r]; [reflexivity|]. cbn in *. unfold isd in B. destruct (digit_value c); [discriminate|reflexivity].
  - cbn in A. apply andb_prop in A. destruct A as [A1 A2]. cbn. unfold isd in A1. unfold val at 1.
    destruct (digit_value c); [|discriminate]. rewrite IH by assumption. reflexivity.
Qed.

Lemma run_exists : forall t, exists s r, t = s ++ r /\ forallb isd s = true /\ starts isd r = false.
Proof.
  induction t as [|c t [s [r [A [B C]]]]]; [exists [], []; repeat split|].
  destruct (isd c) eqn:E.
  - exists (c :: s), r. cbn. rewrite A, E. repeat split; assumption.
  - exists [], (c :: t). repeat split; assumption.
Qed.

(** ** collect *)

Definition nonempty {A} (s : list A) : bool := match s with [] => false | _ => true end.

Lemma nonempty_app {A} : forall a b : list A, nonempty (a ++ b) = nonempty a || nonempty b.
Proof. intros [] b; [destruct b|]; reflexivity. Qed.

Lemma collect_run : forall s r m d e, forallb isd s = true ->
  collect m d e (s ++ r) = let '(k, u) := collect (m || nonempty s) d e r in (s ++ k, u).
Proof.
  induction s as [|c s IH]; intros r m d e A.
  - cbn. rewrite orb_false_r. destruct (collect m d e r). reflexivity.
  - cbn in A. apply andb_prop in A. destruct A as [A1 A2]. cbn. unfold isd in A1.
    destruct (digit_value c); [|discriminate]. rewrite IH by exact A2. rewrite orb_true_r.
    cbn [orb]. destruct (collect true d e r). reflexivity.
Qed.

(** what ends a number when the flags are [m], [d] (no exponent seen) *)
Definition goes_on (m d : bool) (c : ascii) : bool :=
  isd c || (Ascii.eqb c point && negb d) || (ise c && m).

Lemma collect_stop : forall r m d, starts (goes_on m d) r = false -> collect m d false r = ([], r).
Proof.
  intros [|c r] m d H; [reflexivity|]. cbn [starts] in H. unfold goes_on, isd in H. cbn [collect].
  destruct (digit_value c); [discriminate|]. cbn [orb] in H. fold point.
  apply orb_false_elim in H. destruct H as [H1 H2]. cbn [negb]. rewrite !andb_true_r.
  rewrite H1. unfold ise in H2. rewrite H2. reflexivity.
Qed.

Lemma collect_sci_stop : forall r m d, starts isd r = false -> collect m d true r = ([], r).
Proof.
  intros [|c r] m d H; [reflexivity|]. cbn [starts] in H. unfold isd in H. cbn [collect].
  destruct (digit_value c); [discriminate|]. cbn [negb]. rewrite !andb_false_r. reflexivity.
Qed.

Lemma collect_sci : forall s r m d, forallb isd s = true -> starts isd r = false ->
  collect m d true (s ++ r) = (s, r).
Proof.
  intros. rewrite collect_run by assumption. rewrite collect_sci_stop by assumption. now rewrite app_nil_r.
Qed.

Lemma isd_not_e : forall c, ise c = true -> digit_value c = None /\ Ascii.eqb c "." = false.
Proof.
  intros c. unfold ise. intros H. apply orb_prop in H.
  destruct H as [H|H]; apply Ascii.eqb_eq in H; subst c; split; reflexivity.
Qed.

Lemma isd_not_sign : forall c, issign c = true -> digit_value c = None /\ Ascii.eqb c "." = false /\ ise c = false.
Proof.
  intros c. unfold issign. intros H. apply orb_prop in H.
  destruct H as [H|H]; apply Ascii.eqb_eq in H; subst c; repeat split; reflexivity.
Qed.

Lemma isd_sign : forall c, isd c = true -> issign c = false.
Proof.
  intros c H. destruct (issign c) eqn:E; [|reflexivity]. apply isd_not_sign in E. destruct E as [E _].
  unfold isd in H. rewrite E in H. discriminate.
Qed.

(** a sign is a list *)
Definition signs (sg : str) : bool := match sg with [] => true | [c] => issign c | _ => false end.

Lemma collect_exponent : forall c sg s u d, ise c = true -> signs sg = true -> forallb isd s = true ->
  starts isd u = false -> (sg = [] -> s = [] -> starts issign u = false) ->
  collect true d false (c :: sg ++ s ++ u) = ("e"%char :: sg ++ s, u).
Proof.
  intros c sg s u d A B C D E. destruct (isd_not_e c A) as [A1 A2]. cbn [collect]. rewrite A1, A2.
  cbn [andb]. unfold ise in A. rewrite A. cbn [negb andb].
  destruct sg as [|g sg].
  - cbn [app]. destruct (s ++ u) as [|x r] eqn:X.
    + apply app_eq_nil in X. destruct X as [-> ->]. reflexivity.
    + assert (Y : issign x = false).
      { destruct s as [|y s]; cbn in X.
        - specialize (E eq_refl eq_refl). rewrite X in E. exact E.
        - injection X as -> _. cbn in C. apply andb_prop in C. apply isd_sign, C. }
      unfold issign in Y. rewrite Y. rewrite <- X. rewrite collect_sci by assumption. reflexivity.
  - destruct sg; [|discriminate B]. cbn [signs] in B. cbn [app]. unfold issign in B. rewrite B.
    rewrite collect_sci by assumption. reflexivity.
Qed.

(** ** Zeros in front *)

Fixpoint squeeze (found : bool) (s : str) : str :=
  match s with
  | [] => []
  | c :: r => if Ascii.eqb c "0" then (if found then squeeze true r else c :: squeeze true r) else s
  end.

Lemma squeeze_total : forall s f, total (squeeze f s) = total s.
Proof.
  induction s as [|c s IH]; intros f; [reflexivity|]. cbn [squeeze].
  destruct (Ascii.eqb c "0") eqn:E; [|reflexivity]. apply Ascii.eqb_eq in E. subst c.
  destruct f; rewrite ?total_cons0; apply IH.
Qed.

Lemma squeeze_isd : forall s f, forallb isd s = true -> forallb isd (squeeze f s) = true.
Proof.
  induction s as [|c s IH]; intros f H; [reflexivity|]. cbn [squeeze].
  destruct (Ascii.eqb c "0") eqn:E; [|exact H]. cbn in H. apply andb_prop in H. destruct H as [H1 H2].
  destruct f; [apply IH; exact H2|]. cbn. rewrite H1. apply IH. exact H2.
Qed.

Lemma squeeze_nonempty : forall s, nonempty (squeeze false s) = nonempty s.
Proof. intros [|c s]; [reflexivity|]. cbn. destruct (Ascii.eqb c "0"); reflexivity. Qed.

(** zeros, then the rest of the digits *)
Lemma zeros_collect : forall s r d f z u, forallb isd s = true -> starts isd r = false ->
  collect_zeros f (s ++ r) = (z, u) ->
  z ++ fst (collect (f || nonempty z) d false u) =
    squeeze f s ++ fst (collect (f || nonempty s) d false r) /\
  snd (collect (f || nonempty z) d false u) = snd (collect (f || nonempty s) d false r).
Proof.
  induction s as [|c s IH]; intros r d f z u A B Z.
  - cbn [app] in Z. assert (Z' : z = [] /\ u = r).
    { destruct r as [|c r]; cbn in Z; [injection Z as <- <-; split; reflexivity|].
      destruct (Ascii.eqb c "0") eqn:E.
      - apply Ascii.eqb_eq in E. subst c. discriminate B.
      - injection Z as <- <-. split; reflexivity. }
    destruct Z' as [-> ->]. split; reflexivity.
  - pose proof A as A'. cbn in A. apply andb_prop in A. destruct A as [A1 A2]. cbn [app collect_zeros squeeze] in *.
    destruct (Ascii.eqb c "0") eqn:E.
    + apply Ascii.eqb_eq in E. subst c.
      destruct (collect_zeros true (s ++ r)) as [z' u'] eqn:W.
      specialize (IH r d true z' u' A2 B W). cbn [orb] in IH. destruct IH as [I1 I2].
      injection Z as <- <-. cbn [nonempty]. rewrite orb_true_r. destruct f; cbn [orb nonempty].
      * split; assumption.
      * cbn [app]. rewrite I1. split; [reflexivity|exact I2].
    + injection Z as <- <-. cbn [nonempty app]. rewrite orb_false_r, orb_true_r.
      change (c :: s ++ r) with ((c :: s) ++ r). rewrite (collect_run (c :: s)) by exact A'. cbn [nonempty].
      rewrite orb_true_r. destruct (collect true d false r). split; reflexivity.
Qed.

(** ** extract_float *)

(** the texts collected: sign, digits, point and digits, exponent *)
Record shape : Type := mkShape { sh_sign : str; sh_int : str; sh_point : bool; sh_frac : str;
  sh_exp : option (ascii * str * str) }.

Definition point_text (b : bool) : str := if b then [point] else [].
Definition exp_text (e : option (ascii * str * str)) : str :=
  match e with Some (c, sg, s) => c :: sg ++ s | None => [] end.
Definition exp_kept (e : option (ascii * str * str)) : str :=
  match e with Some (c, sg, s) => "e"%char :: sg ++ s | None => [] end.

Definition shape_text (h : shape) : str :=
  sh_sign h ++ sh_int h ++ point_text (sh_point h) ++ sh_frac h ++ exp_text (sh_exp h).

Definition shape_ok (h : shape) (u : str) : Prop :=
  signs (sh_sign h) = true /\ forallb isd (sh_int h) = true /\ forallb isd (sh_frac h) = true /\
  (sh_point h = false -> sh_frac h = []) /\
  (sh_sign h = [] -> starts issign (shape_text h ++ u) = false) /\
  let m := nonempty (sh_int h ++ sh_frac h) in
  match sh_exp h with
  | None => starts (goes_on m (sh_point h)) u = false
  | Some (c, sg, s) => m = true /\ ise c = true /\ signs sg = true /\ forallb isd s = true /\
      starts isd u = false /\ (sg = [] -> s = [] -> starts issign u = false)
  end.

Lemma signs_starts : forall sg r, signs sg = true -> (sg = [] -> starts issign r = false) ->
  match sg ++ r with
  | c :: t => if Ascii.eqb c "+" || Ascii.eqb c "-" then ([c], t) else ([], sg ++ r)
  | [] => ([], [])
  end = (sg, r).
Proof.
  intros [|g [|]] r A B; cbn [app].
  - specialize (B eq_refl). destruct r as [|c r]; [reflexivity|]. cbn in B. unfold issign in B. rewrite B. reflexivity.
  - cbn in A. unfold issign in A. rewrite A. reflexivity.
  - discriminate A.
Qed.

Lemma starts_app : forall p a b, starts p (a ++ b) = if nonempty a then starts p a else starts p b.
Proof. intros p [|c a] b; reflexivity. Qed.

Lemma goes_on_isd : forall m d u, starts (goes_on m d) u = false -> starts isd u = false.
Proof. intros m d [|c u] H; [reflexivity|]. cbn in *. unfold goes_on in H. now destruct (isd c). Qed.

Lemma extract_shape : forall h u, shape_ok h u ->
  extract_float (shape_text h ++ u) =
    (sh_sign h ++ squeeze false (sh_int h) ++ point_text (sh_point h) ++ sh_frac h ++ exp_kept (sh_exp h), u).
Proof.
  intros [sg i p f e] u [A [B [C [D [E G]]]]]. unfold shape_text in *. cbn [sh_sign sh_int sh_point sh_frac sh_exp] in *.
  unfold extract_float. set (r := (i ++ point_text p ++ f ++ exp_text e) ++ u).
  rewrite <- app_assoc. fold r. rewrite signs_starts;
    [|exact A|intros ->; exact (E eq_refl)].
  set (w := point_text p ++ f ++ exp_text e ++ u).
  assert (R : r = i ++ w). { unfold r, w. rewrite <- !app_assoc. reflexivity. }
  (* the rest behind the integer digits *)
  assert (T : collect (nonempty (i ++ f)) p false (exp_text e ++ u) = (exp_kept e, u)).
  { destruct e as [[[c sg'] s]|]; cbn [exp_text exp_kept].
    - destruct G as [M [G1 [G2 [G3 [G4 G5]]]]]. rewrite M. cbn [app]. rewrite <- app_assoc.
      apply collect_exponent; assumption.
    - cbn [app]. apply collect_stop. exact G. }
  assert (S0 : starts isd (exp_text e ++ u) = false).
  { destruct e as [[[c sg'] s]|]; cbn [exp_text].
    - destruct G as [_ [G1 _]]. cbn. destruct (isd_not_e c G1) as [G6 _]. unfold isd. rewrite G6. reflexivity.
    - cbn [app]. exact (goes_on_isd _ _ _ G). }
  assert (W0 : starts isd w = false).
  { unfold w. destruct p; [reflexivity|]. rewrite (D eq_refl). exact S0. }
  assert (W : collect (nonempty i) false false w = (point_text p ++ f ++ exp_kept e, u)).
  { unfold w. destruct p.
    - cbn [point_text app collect]. change (digit_value point) with (@None Z). cbn [Ascii.eqb andb negb point].
      change (Ascii.eqb point ".") with true. cbn [andb].
      rewrite collect_run by exact C. rewrite <- nonempty_app, T. reflexivity.
    - cbn [point_text app]. rewrite (D eq_refl) in *. cbn [app]. rewrite app_nil_r in T. exact T. }
  rewrite R. destruct (collect_zeros false (i ++ w)) as [z t] eqn:Z.
  destruct (zeros_collect i w false false z t B W0 Z) as [Z1 Z2]. cbn [orb] in Z1, Z2.
  rewrite W in Z1, Z2. cbn [fst snd] in Z1, Z2. unfold nonempty in *.
  destruct (collect match z with [] => false | _ => true end false false t) as [k v]. cbn [fst snd] in Z1, Z2.
  subst v. rewrite Z1. reflexivity.
Qed.

(** ** strtod *)

Definition sign_of (sg : str) : bool := match sg with c :: _ => Ascii.eqb c "-" | [] => false end.

Lemma scan_sign_is : forall sg r, signs sg = true -> (sg = [] -> starts issign r = false) ->
  scan_sign (sg ++ r) = (sign_of sg, r).
Proof.
  intros [|g [|]] r A B; cbn [app].
  - specialize (B eq_refl). destruct r as [|c r]; [reflexivity|]. cbn in *. unfold issign in B.
    apply orb_false_elim in B. destruct B as [-> ->]. reflexivity.
  - cbn in *. unfold issign in A. destruct (Ascii.eqb g "-"); [reflexivity|].
    rewrite orb_false_r in A. rewrite A. reflexivity.
  - discriminate A.
Qed.

Definition exp_value (e : option (ascii * str * str)) : Z :=
  match e with Some (_, sg, s) => if sign_of sg then - total s else total s | None => 0 end.

Definition shape_whole (h : shape) : bool :=
  nonempty (sh_int h ++ sh_frac h) &&
  match sh_exp h with Some (_, _, s) => nonempty s | None => true end.

Lemma starts_isd_sign : forall s r, forallb isd s = true -> starts isd r = false ->
  starts issign r = false -> starts issign (s ++ r) = false.
Proof.
  intros [|c s] r A B C; [exact C|]. cbn in *. apply andb_prop in A. apply isd_sign. apply A.
Qed.

Lemma strtod_shape : forall h u, shape_ok h u ->
  strtod_whole (sh_sign h ++ squeeze false (sh_int h) ++ point_text (sh_point h) ++ sh_frac h ++ exp_kept (sh_exp h)) =
    if shape_whole h then
      Some (sign_of (sh_sign h), total (sh_int h ++ sh_frac h), - Z.of_nat (List.length (sh_frac h)) + exp_value (sh_exp h))
    else None.
Proof.
  intros [sg i p f e] u [A [B [C [D [E G]]]]]. unfold shape_text in *. unfold shape_whole.
  cbn [sh_sign sh_int sh_point sh_frac sh_exp] in *.
  set (x := exp_kept e).
  assert (X0 : starts isd x = false). { unfold x. destruct e as [[[c sg'] s]|]; reflexivity. }
  assert (X1 : starts issign x = false). { unfold x. destruct e as [[[c sg'] s]|]; reflexivity. }
  assert (X2 : starts (Ascii.eqb ".") x = false). { unfold x. destruct e as [[[c sg'] s]|]; reflexivity. }
  set (w := point_text p ++ f ++ x).
  assert (W0 : starts isd w = false).
  { unfold w. destruct p; [reflexivity|]. rewrite (D eq_refl). exact X0. }
  assert (W1 : starts issign w = false).
  { unfold w. destruct p; [reflexivity|]. rewrite (D eq_refl). exact X1. }
  unfold strtod_whole. rewrite scan_sign_is;
    [|exact A|intros _; apply starts_isd_sign; [apply squeeze_isd; exact B|exact W0|exact W1]].
  rewrite scan_digits_run by (try apply squeeze_isd; assumption).
  assert (Y : match w return (list Z * str) with
              | c :: r => if Ascii.eqb c "." then scan_digits r else ([], w)
              | [] => ([], []) end = (map val f, x)).
  { unfold w. destruct p.
    - cbn [point_text app]. change (Ascii.eqb point ".") with true. apply scan_digits_run; assumption.
    - rewrite (D eq_refl). cbn [point_text app map]. destruct x as [|c r]; [reflexivity|].
      cbn [starts] in X2. rewrite Ascii.eqb_sym in X2. rewrite X2. reflexivity. }
  match goal with |- (let '(fp, s) := ?X in _) = _ => replace X with (map val f, x) by (symmetry; exact Y) end.
  rewrite <- map_app.
  assert (V : nonempty (squeeze false i ++ f) = nonempty (i ++ f)).
  { rewrite !nonempty_app, squeeze_nonempty. reflexivity. }
  rewrite <- V.
  assert (U : total (squeeze false i ++ f) = total (i ++ f)).
  { rewrite !total_app, squeeze_total. reflexivity. }
  rewrite map_length.
  destruct (squeeze false i ++ f) as [|c0 l] eqn:L.
  { reflexivity. }
  cbn [map nonempty andb].
  assert (U' : digits_value (val c0 :: map val l) = total (i ++ f)).
  { rewrite <- U. reflexivity. }
  rewrite U'. unfold x. destruct e as [[[c sg'] s]|]; cbn [exp_kept exp_value].
  - destruct G as [M [G1 [G2 [G3 [G4 G5]]]]]. change (Ascii.eqb "e" "e") with true. cbv iota.
    replace s with (s ++ @nil ascii) at 1 by apply app_nil_r.
    rewrite scan_sign_is; [|exact G2|intros _; apply starts_isd_sign; [exact G3|reflexivity|reflexivity]].
    rewrite scan_digits_run by (exact G3 || reflexivity).
    destruct s as [|s0 s]; reflexivity.
  - rewrite Z.add_0_r. reflexivity.
Qed.

(** every text has a shape *)
Lemma sign_exists : forall t, exists sg r, t = sg ++ r /\ signs sg = true /\ (sg = [] -> starts issign r = false).
Proof.
  intros [|c t]; [exists [], []; repeat split|]. destruct (issign c) eqn:E.
  - exists [c], t. repeat split; [exact E|discriminate].
  - exists [], (c :: t). repeat split. intros _. exact E.
Qed.

Lemma shape_exists : forall t, exists h u, t = shape_text h ++ u /\ shape_ok h u.
Proof.
  intros t. destruct (sign_exists t) as [sg [r [-> [A E]]]].
  destruct (run_exists r) as [i [r1 [-> [B B']]]].
  assert (P : exists p f r2, r1 = point_text p ++ f ++ r2 /\ forallb isd f = true /\ (p = false -> f = []) /\
                starts isd r2 = false /\ (p = false -> starts (Ascii.eqb point) r2 = false)).
  { destruct (starts (Ascii.eqb point) r1) eqn:Q.
    - destruct r1 as [|c r1]; [discriminate Q|]. cbn [starts] in Q. apply Ascii.eqb_eq in Q. subst c.
      destruct (run_exists r1) as [f [r2 [-> [C C']]]].
      exists true, f, r2. repeat split; try assumption; discriminate.
    - exists false, [], r1. repeat split; intros; (reflexivity || assumption). }
  destruct P as [p [f [r2 [-> [C [D [S0 S1]]]]]]].
  assert (X : exists e u, r2 = exp_text e ++ u /\
    match e with
    | None => starts (goes_on (nonempty (i ++ f)) p) u = false
    | Some (c, sg, s) => nonempty (i ++ f) = true /\ ise c = true /\ signs sg = true /\ forallb isd s = true /\
        starts isd u = false /\ (sg = [] -> s = [] -> starts issign u = false)
    end).
  { destruct (starts (goes_on (nonempty (i ++ f)) p) r2) eqn:Q.
    - destruct r2 as [|c r2]; [discriminate Q|]. cbn [starts] in Q, S0, S1. unfold goes_on in Q. rewrite S0 in Q.
      assert (Q' : Ascii.eqb c point && negb p = false).
      { destruct p; [apply andb_false_r|]. rewrite Ascii.eqb_sym, (S1 eq_refl). reflexivity. }
      rewrite Q' in Q. cbn [orb] in Q. apply andb_prop in Q. destruct Q as [Q1 Q2].
      destruct (sign_exists r2) as [sg' [r3 [-> [G E']]]]. destruct (run_exists r3) as [s [u [-> [H1 H2]]]].
      exists (Some (c, sg', s)), u. cbn [exp_text app]. rewrite <- app_assoc. repeat split; try assumption.
      intros -> ->. exact (E' eq_refl).
    - exists None, r2. split; [reflexivity|exact Q]. }
  destruct X as [e [u [-> X]]].
  exists (mkShape sg i p f e), u. split.
  - unfold shape_text. cbn [sh_sign sh_int sh_point sh_frac sh_exp]. rewrite <- !app_assoc. reflexivity.
  - repeat split; cbn [sh_sign sh_int sh_point sh_frac sh_exp]; try assumption.
    intros ->. unfold shape_text. cbn [sh_sign sh_int sh_point sh_frac sh_exp].
    cbn [app]. rewrite <- !app_assoc. exact (E eq_refl).
Qed.
