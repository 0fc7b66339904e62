(** Polynomial::X on curves that rise and bend in one direction. *)
From Coq Require Import ZArith List Lia Lra Reals.
From Verif Require Import Num ProofReal ModelPolynomial SpecPolynomial SpecCurve ProofPolynomial ProofNewton.
Import ListNotations.
Open Scope R_scope.

(** The mirrored curve. *)
Lemma newton_mirror : forall f slope y g k,
  newton (fun x => - f (- x)) (fun x => slope (- x)) (- y) (- g) k = - newton f slope y g k.
Proof.
  intros f slope y g k. induction k as [|k IH]; [reflexivity|]. cbn [newton]. rewrite IH, Ropp_involutive.
  destruct (Req_EM_T (slope (newton f slope y g k)) 0) as [E|E]; [reflexivity|]. field. exact E.
Qed.

Lemma mirror_deriv : forall f slope, (forall x, derivable_pt_lim f x (slope x)) ->
  forall x, derivable_pt_lim (fun x => - f (- x)) x (slope (- x)).
Proof.
  intros f slope D x.
  assert (E : derivable_pt_lim (- (comp f (- id)))%F x (- (slope ((- id)%F x) * (- 1)))).
  { apply derivable_pt_lim_opp. apply derivable_pt_lim_comp; [|apply D]. apply derivable_pt_lim_opp. apply derivable_pt_lim_id. }
  unfold opp_fct, comp, id in E. replace (- (slope (- x) * -1)) with (slope (- x)) in E by ring. exact E.
Qed.

Lemma tol_pos : forall n, 0 < powerRZ 10 (- n).
Proof. intros n. apply powerRZ_lt. lra. Qed.

Lemma swap_ratio : forall t u v : R, u <> 0 -> v <> 0 -> t / (u / v) = t * (v / u).
Proof. intros t u v U V. field. split; assumption. Qed.

Lemma X_concave : forall (store : addr -> list R) cp cs p a (y g : R) n slope lo hi,
  poly_run (N := RNum) store (Polynomial_new cp) cs = Ok p -> py_coefficients p = CAddr a ->
  store a <> [] -> powerRZ 10 (- n) < 999999 ->
  (forall x, derivable_pt_lim (peval (store a)) x (slope x)) -> rises_concave slope lo hi ->
  lo <= g <= hi -> peval (store a) lo <= y <= peval (store a) hi ->
  peval (store a) g - slope g * (g - lo) <= y ->
  (1 - slope hi / slope lo) ^ 99 * (peval (store a) hi - peval (store a) lo) <= powerRZ 10 (- n) ->
  exists x p', Polynomial_X (N := RNum) store p y n g = Ok (x, p') /\ lo <= x <= hi /\
    0 <= y - peval (store a) x <= powerRZ 10 (- n) * (slope lo / slope hi) /\
    (peval (store a) g <= y \/ powerRZ 10 (- n) < Rabs (peval (store a) g - y) ->
     y - peval (store a) x <= powerRZ 10 (- n)).
Proof.
  intros store cp cs p a y g n slope lo hi H C NE Hp D B (G1 & G2) (Y1 & Y2) F1 En.
  destruct (X_is_newton store cp cs p a y g n slope H C NE Hp D) as (m & p' & M & E & _ & T).
  eexists. exists p'. split; [exact E|].
  destruct (concave_answer (peval (store a)) slope lo hi y g D B G1 G2 Y2 F1 m (powerRZ 10 (- n)) M T En) as (A1 & A2 & A3).
  split; [exact A1|]. split; [|exact A3].
  destruct (B lo hi) as (P1 & P2); try lra. rewrite swap_ratio in A2 by lra. exact A2.
Qed.

Lemma X_convex : forall (store : addr -> list R) cp cs p a (y g : R) n slope lo hi,
  poly_run (N := RNum) store (Polynomial_new cp) cs = Ok p -> py_coefficients p = CAddr a ->
  store a <> [] -> powerRZ 10 (- n) < 999999 ->
  (forall x, derivable_pt_lim (peval (store a)) x (slope x)) -> rises_convex slope lo hi ->
  lo <= g <= hi -> peval (store a) lo <= y <= peval (store a) hi ->
  y <= peval (store a) g + slope g * (hi - g) ->
  (1 - slope lo / slope hi) ^ 99 * (peval (store a) hi - peval (store a) lo) <= powerRZ 10 (- n) ->
  exists x p', Polynomial_X (N := RNum) store p y n g = Ok (x, p') /\ lo <= x <= hi /\
    0 <= peval (store a) x - y <= powerRZ 10 (- n) * (slope hi / slope lo) /\
    (y <= peval (store a) g \/ powerRZ 10 (- n) < Rabs (peval (store a) g - y) ->
     peval (store a) x - y <= powerRZ 10 (- n)).
Proof.
  intros store cp cs p a y g n slope lo hi H C NE Hp D B (G1 & G2) (Y1 & Y2) F1 En.
  destruct (X_is_newton store cp cs p a y g n slope H C NE Hp D) as (m & p' & M & E & _ & T).
  eexists. exists p'. split; [exact E|].
  set (f := peval (store a)) in *. set (h := fun x => - f (- x)). set (s := fun x => slope (- x)).
  assert (N0 : forall k, newton h s (- y) (- g) k = - newton f slope y g k) by (intros k; apply newton_mirror).
  assert (Ab : forall x, Rabs (h (- x) - - y) = Rabs (f x - y)).
  { intros x. unfold h. rewrite Ropp_involutive. replace (- f x - - y) with (- (f x - y)) by ring. apply Rabs_Ropp. }
  assert (Bh : forall x z, - hi <= x -> x <= z -> z <= - lo -> 0 < s z <= s x).
  { intros x z X1 X2 X3. unfold s. apply B; lra. }
  destruct (concave_answer h s (- hi) (- lo) (- y) (- g) (mirror_deriv f slope D) Bh) with (m := m) (tol := powerRZ 10 (- n))
    as (A1 & A2 & A3).
  - lra.
  - lra.
  - unfold h. rewrite Ropp_involutive. lra.
  - unfold h, s. rewrite !Ropp_involutive. lra.
  - exact M.
  - destruct T as [T|T]; [left; exact T|right]. rewrite N0, Ab. exact T.
  - unfold h, s. rewrite !Ropp_involutive. replace (- f lo - - f hi) with (f hi - f lo) by ring. exact En.
  - rewrite N0 in A1, A2, A3. rewrite Ab in A3. unfold h, s in A2, A3; rewrite !Ropp_involutive in A2; rewrite !Ropp_involutive in A3.
    set (x := newton f slope y g m) in *. split; [lra|]. destruct (B lo hi) as (P1 & P2); try lra.
    rewrite swap_ratio in A2 by lra. split; [lra|]. intros Q.
    assert (- y - - f x <= powerRZ 10 (- n)) by (apply A3; destruct Q; [left; lra|right; assumption]). lra.
Qed.

(** A straight line, with any number of coefficients. *)
Lemma X_straight : forall (store : addr -> list R) cp cs p a (c0 c1 y g : R) n,
  poly_run (N := RNum) store (Polynomial_new cp) cs = Ok p -> py_coefficients p = CAddr a ->
  straight (store a) c0 c1 -> store a <> [] -> c1 <> 0 -> powerRZ 10 (- n) < 999999 ->
  exists p', Polynomial_X (N := RNum) store p y n g = Ok ((y - c0) / c1, p').
Proof.
  intros store cp cs p a c0 c1 y g n H C L NE Hc Hn.
  assert (D : forall x, derivable_pt_lim (peval (store a)) x c1).
  { intros x. apply (derivable_ext (fct_cte c0 + (fct_cte c1 * id))%F); [intros t; rewrite L; reflexivity|].
    assert (E : derivable_pt_lim (fct_cte c0 + (fct_cte c1 * id))%F x (0 + (0 * id x + fct_cte c1 x * 1))).
    { apply derivable_pt_lim_plus; [apply derivable_pt_lim_const|].
      apply derivable_pt_lim_mult; [apply derivable_pt_lim_const|apply derivable_pt_lim_id]. }
    replace (0 + (0 * id x + fct_cte c1 x * 1)) with c1 in E by (unfold fct_cte, id; ring). exact E. }
  destruct (X_is_newton store cp cs p a y g n (fun _ => c1) H C NE Hn D) as (m & p' & B & E & _).
  exists p'. rewrite E. f_equal. f_equal. destruct m as [|m]; [lia|].
  cbn [newton]. destruct (Req_EM_T c1 0); [contradiction|]. rewrite L. field. assumption.
Qed.
