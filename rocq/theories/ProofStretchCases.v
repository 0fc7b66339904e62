(** Proofs about the stretch states of line cables in the reals and in doubles, and a line. *)
From Coq Require Import ZArith Bool List Reals Lra.
From Verif Require Import Num NumFacts ModelBase ModelLine ModelCable ModelCatenary ModelLoad ModelThermal ModelElongation ModelReload
  ModelSagtension SpecCatenary SpecSagtension SampleSag SpecStretch ProofReal ProofThermalCases ProofStretch.
Import ListNotations.
Open Scope num_scope.

Lemma starts_R : starts (N := RNum).
Proof.
  unfold starts. apply Rltb_true. rewrite ferr_R, Rlit0, flit_R.
  change (1 * powerRZ 10 (-2) < Rabs (-999999 - 0))%R. rewrite Rabs_left by lra.
  assert (P : (powerRZ 10 (-2) = 1 / 100)%R) by (simpl; field). rewrite P. lra.
Qed.

Lemma starts_64 : forall lm, starts (N := B64 lm).
Proof. intros lm. unfold starts. vm_compute. reflexivity. Qed.

Lemma matches_R : forall t x : R, matches (N := RNum) t x <-> (Rabs (t - x) <= 1 / 100)%R.
Proof.
  intros t x. unfold matches. rewrite Rlit0, flit_R. change (fabs (n := RNum)) with Rabs. change (fsub (n := RNum)) with Rminus.
  replace (t - x - 0)%R with (t - x)%R by ring. split.
  - intros H. apply Rltb_false in H. assert (P : (powerRZ 10 (-2) = 1 / 100)%R) by (simpl; field). rewrite P in H. lra.
  - intros H. apply Rltb_false. assert (P : (powerRZ 10 (-2) = 1 / 100)%R) by (simpl; field). rewrite P. lra.
Qed.

(** A cable whose components creep, and a line with it strung to a tension after load. *)
Definition h_comp (slope creep : Z) : CableComponent X20 :=
  mkCableComponent (N := X20) (x20 1) (r20 1 4096) (map x20 [0; creep; 0; 0; 0]%Z) (map x20 [0; slope; 0; 0; 0]%Z) (x20 16)
    (x20 16) (x20 1) (x20 8) (x20 1) (x20 1).
Definition h_cable : Cable X20 :=
  mkCable (N := X20) (x20 1) (x20 1) (h_comp 2 1) (h_comp 6 4) (r20 1 12) (x20 1) [] (x20 16) (x20 64) (r20 1 256).
Definition h_line (c : Condition) : Strung X20 :=
  g_strung h_cable (mkConstraint (N := X20) (Some (g_weather 64)) c (r20 1 2) LmHorizontal).
Definition h_calls : list (LrCall X20) :=
  [LrSetLine (Some (h_line CdInitial)); LrSetCondition CdInitial; LrSetWeather (Some (g_weather 96)); LrStretchStateLoad;
   LrSetLine (Some (h_line CdLoad))].
Definition h_unload : list (LuCall X20) :=
  [LuSetLine (Some (h_line CdLoad)); LuSetCondition CdInitial; LuSetSpacing (g_spacing 9); LuSetTemperature (x20 80)].
Lemma h_states : match lr_run [] Reloader_new h_calls with
  | Ok r => match lr_StretchStateCreep r, lr_StretchStateLoad r with
            | Ok (c, _), Ok (l, _) => (ss_load c =? 364428)%Z && (ss_load l =? 656385)%Z
            | _, _ => false
            end
  | _ => false
  end &&
  match lu_run [] Unloader_new h_unload with
  | Ok r => match lu_StretchStateCreep r, lu_StretchStateLoad r with
            | Ok (c, _), Ok (l, _) => (ss_load c =? 364428)%Z && (ss_load l =? 656385)%Z
            | _, _ => false
            end
  | _ => false
  end && match carried_load (h_line CdLoad) (mkStretchState (N := X20) (x20 32) PTLoadStrain 656385%Z) with
         | Ok t => (Z.abs (t - 656385) <? r20 1 100)%Z
         | _ => false
         end = true.
Proof. vm_cast_no_check (eq_refl true). Qed.

Lemma h_case : starts (N := X20) /\
  exists r creep r1 load r2, lr_run [] Reloader_new h_calls = Ok r /\ lr_StretchStateCreep r = Ok (creep, r1) /\
    lr_StretchStateLoad r = Ok (load, r2) /\ ss_load creep = 364428%Z /\ ss_load load = 656385%Z.
Proof.
  split; [vm_compute; reflexivity|]. pose proof h_states as H.
  destruct (lr_run [] Reloader_new h_calls) as [r| |]; cbn [andb] in H; try discriminate H. exists r.
  destruct (lr_StretchStateCreep r) as [(c, r1)| |]; cbn [andb] in H; try discriminate H.
  destruct (lr_StretchStateLoad r) as [(l, r2)| |]; cbn [andb] in H; try discriminate H.
  apply andb_prop in H. destruct H as [H _]. apply andb_prop in H. destruct H as [H _]. apply andb_prop in H. destruct H as [A B].
  exists c, r1, l, r2. apply Z.eqb_eq in A, B. auto.
Qed.

Lemma h_case_u : exists u creep u1 load u2, lu_run [] Unloader_new h_unload = Ok u /\ lu_StretchStateCreep u = Ok (creep, u1) /\
    lu_StretchStateLoad u = Ok (load, u2) /\ ss_load creep = 364428%Z /\ ss_load load = 656385%Z.
Proof.
  pose proof h_states as H. apply andb_prop in H. destruct H as [H _]. apply andb_prop in H. destruct H as [_ H].
  destruct (lu_run [] Unloader_new h_unload) as [r| |]; try discriminate H. exists r.
  destruct (lu_StretchStateCreep r) as [(c, r1)| |]; try discriminate H.
  destruct (lu_StretchStateLoad r) as [(l, r2)| |]; try discriminate H.
  apply andb_prop in H. destruct H as [A B].
  exists c, r1, l, r2. apply Z.eqb_eq in A, B. auto.
Qed.

(** ** The statements *)
Lemma reloader_stretch_N : forall (N : Num) env (ks : list (LrCall N)) r creep r1 load r2,
  (flit (n := N) 1 (-2) <? fabs (ferr - #0)) = true -> lr_run env Reloader_new ks = Ok r ->
  lr_StretchStateCreep r = Ok (creep, r1) -> lr_StretchStateLoad r = Ok (load, r2) ->
  creep = StretchState_default /\ load = StretchState_default \/
  exists line, last_of pickLr_line ks None = Some line /\ stretches line creep load.
Proof. intros N. exact (history_stretches (N := N)). Qed.

Lemma unloader_stretch_N : forall (N : Num) env (ks : list (LuCall N)) u creep u1 load u2,
  (flit (n := N) 1 (-2) <? fabs (ferr - #0)) = true -> lu_run env Unloader_new ks = Ok u ->
  lu_StretchStateCreep u = Ok (creep, u1) -> lu_StretchStateLoad u = Ok (load, u2) ->
  creep = StretchState_default /\ load = StretchState_default \/
  exists line, last_of pickLu_line ks None = Some line /\ stretches line creep load.
Proof. intros N. exact (history_stretches_u (N := N)). Qed.

Lemma start_hypothesis : (flit (n := RNum) 1 (-2) <? fabs (ferr - #0)) = true /\
  (forall lm, (flit (n := B64 lm) 1 (-2) <? fabs (ferr - #0)) = true) /\
  forall t x : R, matches (N := RNum) t x <-> (Rabs (t - x) <= 1 / 100)%R.
Proof. exact (conj starts_R (conj starts_64 matches_R)). Qed.
