(** * CkptMain: at which steps checkpoints are taken; resuming (C49, C53, C54) *)
From Coq Require Import Permutation Sorted.
From Verif Require Import Py PyLemmas TrainModel TrainSpec TrainProofs TrainState TrainMain TrainMore TrainThms TrainThms2
  CkptModel CkptSpec CkptProofs CkptRun.
Set Implicit Arguments.
Unset Strict Implicit.
Open Scope string_scope.
Open Scope list_scope.
Open Scope Z_scope.

Section Gen.
Context {O W : Type}.
Notation entry := (entry O).

Lemma nth_saves cid (tr : list entry) j seen :
  nth_error (saves cid tr) j = Some seen ->
  exists a c x u b, tr = a ++ TCall PEndCycle c x seen (Ok u) :: b /\ cb_id c = cid
    /\ List.length (saves cid a) = j.
Proof.
  revert j. induction tr as [|e tr IH]; intros j H; [destruct j; discriminate|].
  assert (G : saves cid [e] = [] -> nth_error (saves cid tr) j = Some seen ->
     exists a c x u b, e :: tr = a ++ TCall PEndCycle c x seen (Ok u) :: b /\ cb_id c = cid
     /\ List.length (saves cid a) = j).
  { intros N H'. destruct (IH _ H') as (a & c & x & u & b & -> & C & L). exists (e :: a), c, x, u, b.
    split; auto. split; auto. change (e :: a) with ([e] ++ a). rewrite saves_app, N. auto. }
  change (e :: tr) with ([e] ++ tr) in H. rewrite saves_app in H.
  destruct (saves cid [e]) as [|z r] eqn:Sv; [apply G; auto|].
  simpl in Sv. destruct e as [|ph c x sn [u|]]; try discriminate; destruct ph; try discriminate.
  destruct (Nat.eqb_spec (cb_id c) cid) as [Ec|]; [|discriminate]. injection Sv as <- <-.
  destruct j as [|j]; simpl in H.
  - injection H as <-. exists [], c, x, u, tr. auto.
  - destruct (IH _ H) as (a & c' & x' & u' & b & -> & C & L).
    exists (TCall PEndCycle c x sn (Ok u) :: a), c', x', u', b. split; auto. split; auto.
    simpl. rewrite (proj2 (Nat.eqb_eq _ _) Ec). simpl. auto.
Qed.

Lemma saves_count cid (tr : list entry) :
  quiet tr -> List.length (saves cid tr) = count PEndCycle cid (calls tr).
Proof.
  induction tr as [|e tr IH]; intros Q; auto. inversion Q; subst. specialize (IH H2).
  change (e :: tr) with ([e] ++ tr). rewrite saves_app, app_length, calls_app, count_app, IH. f_equal.
  destruct e as [|ph c x sn [u|]]; try discriminate; auto.
  unfold count. simpl. destruct ph; simpl; auto. destruct (Nat.eqb (cb_id c) cid); auto.
Qed.

Lemma in_steps_calls l k n ph c : In (ph, c) (steps_calls l k n) -> exists k', In (ph, c) (step_calls l k').
Proof. unfold steps_calls. intros I. apply in_flat_map in I. destruct I as (i & _ & I). eauto. Qed.

(** Nothing has been raised before a hook in the loop is called. *)
Lemma quiet_before (act : behaviour O W) size cbs d st0 w s out a ph c x seen r b :
  train act size cbs d st0 w = (s, out) ->
  wd_trace s = a ++ TCall ph c x seen r :: b ->
  ph <> PRestore -> ph <> PBeginTraining -> ph <> PEndTraining -> quiet a.
Proof.
  intros H E N1 N2 N3.
  destruct (train_order_main _ _ _ _ _ _ H) as (l & k0 & _ & _ & D).
  assert (Q1 : forall (t1 t2 : list entry), quiet (t1 ++ t2) -> quiet t1).
  { intros t1 t2 Q. apply Forall_app in Q. tauto. }
  destruct D as [(m & e & tr0 & y & Cm & Tm & Qm & _)|[(Qt & _ & _)|(main & fin & m & e & Tm & _ & St & Cl)]].
  - exfalso. assert (I : In (ph, c) (opening l)).
    { rewrite <- (firstn_skipn m). apply in_or_app. left. rewrite <- Cm, E. apply in_calls. }
    apply in_opening in I. tauto.
  - rewrite E in Qt. eauto.
  - rewrite Tm in E. apply app_mid in E. destruct E as [(b' & E & _)|(a' & Ea & E)].
    + destruct St as [[(tr0 & y & Em & Qm & _)|(Qm & _)]|(Qm & _)].
      * rewrite Em in E. apply snoc_split in E. destruct E as [(-> & _)|(es & ->)]; eauto.
      * rewrite E in Qm. eauto.
      * rewrite E in Qm. eauto.
    + exfalso. apply N3. apply (@in_closing l ph c).
      destruct Cl as [_ [(_ & <- & _)|(tr0 & y & e' & rest & _ & _ & _ & <- & _)]]; rewrite E.
      * apply in_calls.
      * apply in_or_app. left. apply in_calls.
Qed.

(** The [j]-th end of cycle of a callback is at step (j+1) * cycle. *)
Lemma end_cycle_step (act : behaviour O W) size cbs d st0 w s out a c x seen r b p :
  train act size cbs d st0 w = (s, out) -> NoDup (map cb_id cbs) ->
  leaves act cbs before_training "bp_step" ->
  wd_trace s = a ++ TCall PEndCycle c x seen r :: b -> cb_cycle c = Some p ->
  Z.of_nat (List.length (batches a)) = (Z.of_nat (List.length (saves (cb_id c) a)) + 1) * p.
Proof.
  intros H ND Lv E Cp.
  destruct (train_call_in_step _ _ _ _ _ _ _ _ _ _ H Lv E)
    as (a1 & k & b1 & a2 & rest & Ea & B2 & K & P & C); try discriminate.
  assert (I : In (PEndCycle, c) (step_calls (sort_cbs cbs) k)).
  { rewrite <- C. apply in_or_app. right. left. auto. }
  pose proof (in_step_calls _ _ _ _ I) as (Ic & _ & Le & _). specialize (Le eq_refl).
  destruct (last_of_cycle_spec c P Le) as (p' & q & Cp' & Pp & Pq & Kq).
  rewrite Cp in Cp'. injection Cp' as <-.
  assert (ND' : NoDup (map cb_id (sort_cbs cbs))).
  { eapply Permutation_NoDup; [|exact ND]. apply Permutation_map. apply sort_perm. }
  rewrite saves_count.
  2: { eapply quiet_before; [exact H|exact E| | |]; discriminate. }
  assert (E1 : wd_trace s = a1 ++ TBatch k b1 :: (a2 ++ TCall PEndCycle c x seen r :: b)).
  { rewrite E, Ea, <- app_assoc. auto. }
  destruct (train_at_batch _ _ _ _ _ _ _ _ H Lv E1) as [C1 K1].
  assert (Cl : calls a = calls a1 ++ calls a2) by (rewrite Ea, calls_app; auto).
  rewrite Cl, C1, !count_app, !Nat2Z.inj_add.
  rewrite (@count_ends _ _ _ _ ND' Ic Cp Pp).
  assert (Z1 : count PEndCycle (cb_id c) (opening (sort_cbs cbs)) = 0%nat).
  { unfold opening. rewrite count_app, !count_all_of_other by discriminate. auto. }
  assert (Z2 : count PEndCycle (cb_id c) (calls a2) = 0%nat).
  { pose proof (@count_step _ k _ PEndCycle ND' Ic) as Cs. rewrite <- C, count_app in Cs.
    rewrite Le in Cs.
    assert (Z3 : (1 <= count PEndCycle (cb_id c) ((PEndCycle, c) :: rest))%nat).
    { unfold count. simpl. rewrite Nat.eqb_refl. simpl. lia. }
    lia. }
  rewrite Z1, Z2. rewrite <- K.
  assert (D1 : Z.of_nat (List.length (batches a1)) / p = q - 1).
  { assert (K2 : Z.of_nat (List.length (batches a1)) = (q - 1) * p + (p - 1)) by lia.
    rewrite K2, Z.div_add_l by lia. rewrite Z.div_small by lia. lia. }
  rewrite D1. change (Z.of_nat 0) with 0. lia.
Qed.

Definition in_training (ph : phase) : Prop := ~ before_training ph.

(** The counters of a run that starts with given counters. *)
Lemma counters_from (act : behaviour O W) size cbs d sizes st0 w s out a ph c x seen r b N M :
  train act size cbs d st0 w = (s, out) ->
  proper act (da_items d) -> Forall2 (sized size) (da_items d) sizes -> size <> "bp_step" ->
  size <> "bp_samples" ->
  (forall s1, andthen (run_phase act PRestore None (sort_cbs cbs)
         (mkWorld (dset (dset st0 "bp_samples" (VNum 0)) "bp_step" (VNum 1)) w []))
         (run_phase act PBeginTraining None (sort_cbs cbs)) = (s1, Ok tt) ->
     dget (wd_state s1) "bp_step" = Some (VNum N) /\ dget (wd_state s1) "bp_samples" = Some (VNum M)) ->
  leaves act cbs in_training "bp_step" -> leaves act cbs in_training "bp_samples" ->
  wd_trace s = a ++ TCall ph c x seen r :: b ->
  let k := List.length (batches a) in
  (0 < k)%nat ->
  dget seen "bp_step" = Some (VNum (N + Z.of_nat k - 1))
  /\ dget seen "bp_samples" = Some (VNum (M + zsum (firstn k sizes))).
Proof.
  intros H P Sz S1 S2 Op L1 L2 E k Pk.
  destruct (train_faithful _ _ _ _ _ P H) as [_ F]. specialize (F _ _ _ _ _ _ _ E).
  assert (G : genuine act cbs (wd_trace s)).
  { destruct (train_shape _ _ _ _ _ _ H) as (? & ? & ? & ? & _ & _ & _ & _ & _ & _ & _ & _ & _ & G). auto. }
  destruct (train_cases _ _ _ _ _ _ H) as (s1 & r1 & A & X).
  destruct (opening_follows _ _ _ A) as (es1 & T1 & Fe & B1). simpl in T1.
  destruct r1 as [u|e1].
  2: { exfalso. destruct X as [-> _]. rewrite T1 in E. rewrite E, batches_app in B1.
       subst k. destruct (batches a); [simpl in Pk; lia|discriminate]. }
  destruct u. destruct (Op _ A) as [O1 O2]. rewrite O1 in X.
  destruct (loop act size (sort_cbs cbs) N (da_items d) s1) as [s2 r2] eqn:L.
  assert (F1 : faithful size (initial st0) s1).
  { revert A. set (s0 := mkWorld _ _ _). intros A. destruct P as [NDa _].
    eapply (@phases_faithful O W act size (initial st0) NDa); [|exact A|].
    - intros *. apply (@run_phase_faithful O W act size (initial st0) NDa).
    - split; simpl.
      + intros key. rewrite dget_dset_written. unfold initial, written.
        destruct (key =? "bp_step")%string; auto. rewrite dget_dset_written. auto.
      + intros * E'. destruct es0; discriminate. }
  destruct F1 as [F1 _]. rewrite T1 in F1.
  destruct (loop_positions _ _ _ _ _ _ L) as (es2 & T2 & P2). rewrite T1 in T2.
  destruct (loop_batches _ _ _ _ _ _ L) as (es2' & T2' & B2 & _).
  rewrite T2, T1 in T2'. apply app_inv_head in T2'. subst es2'.
  assert (Fn : exists fin, wd_trace s = es1 ++ es2 ++ fin /\ (exists rest, calls fin ++ rest = closing (sort_cbs cbs))
             /\ batches fin = []).
  { apply finish_cases in X. simpl in X. destruct r2.
    - destruct X as [-> _]. exists []. rewrite !app_nil_r. split; auto. split; [eexists; reflexivity|auto].
    - destruct X as (r3 & R3 & _). destruct (run_phase_follows _ _ _ _ _ R3) as (fin & T3 & F3 & B3 & _).
      exists fin. rewrite T3, T2, <- app_assoc. split; auto. split; auto. eapply follows_prefix; eauto. }
  destruct Fn as (fin & Ts & [rest Rf] & Bf).
  rewrite Ts in E. apply app_mid in E. destruct E as [(b' & E & _)|(a' & Ea & E)].
  { exfalso. rewrite E, batches_app in B1. subst k. destruct (batches a); [simpl in Pk; lia|discriminate]. }
  assert (Ba : batches a = batches a') by (rewrite Ea, batches_app, B1; auto).
  assert (Gt : genuine act cbs a').
  { rewrite Ts in G. apply Forall_app in G. destruct G as [_ G]. rewrite E in G. apply Forall_app in G. tauto. }
  assert (Ph : Forall (fun p => in_training (fst p)) (calls a')).
  { apply Forall_forall. intros [ph' c'] I.
    assert (J : In (ph', c') (calls (es2 ++ fin))).
    { rewrite E, calls_app. apply in_or_app. auto. }
    rewrite calls_app in J. apply in_app_or in J. intros Bt. simpl in Bt. destruct J as [J|J].
    - apply in_calls_inv in J. destruct J as (b1 & x1 & seen1 & r1 & b2 & Eb).
      destruct P2 as [_ P2]. destruct (P2 _ _ _ _ _ _ _ Eb) as (c1 & d1 & c2 & rst & _ & _ & Cs).
      assert (J' : In (ph', c') (step_calls (sort_cbs cbs) (N + Z.of_nat (List.length (batches c1))))).
      { rewrite <- Cs. apply in_or_app. right. left. auto. }
      apply in_step_calls in J'. destruct Bt; tauto.
    - assert (J' : In (ph', c') (closing (sort_cbs cbs))) by (rewrite <- Rf; apply in_or_app; auto).
      apply in_closing in J'. subst. destruct Bt; discriminate. }
  assert (B3 : batches_of N (da_items d) (batches a')).
  { assert (Bs : batches a' ++ batches (TCall ph c x seen r :: b) = batches es2).
    { rewrite <- batches_app, <- E, batches_app, Bf, app_nil_r. auto. }
    rewrite <- Bs in B2. eapply batches_of_app; eauto. }
  destruct (sized_batches Sz B3) as [Hs Es]. subst k. rewrite Ba in *. split.
  - rewrite F, Ea, visible_app, visible_step; auto.
    + destruct (@batches_of_last _ _ _ (batches a') B3) as [b1 R]; [destruct (batches a'); [simpl in Pk; lia|discriminate]|].
      rewrite R. auto.
    + exact (genuine_untouched Gt L1 Ph).
  - rewrite F, Ea, visible_app, (@visible_samples O size _ M a' S1 S2); auto.
    + rewrite Es. auto.
    + exact (genuine_untouched Gt L2 Ph).
    + rewrite <- F1. auto.
Qed.
End Gen.
