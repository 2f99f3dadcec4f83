(** * TrainThms2: the terminator and the counters (C45, C48) *)
From Coq Require Import Permutation Sorted.
From Verif Require Import Py PyLemmas TrainModel TrainSpec TrainProofs TrainState TrainMain TrainMore TrainThms.
Set Implicit Arguments.
Unset Strict Implicit.
Open Scope string_scope.
Open Scope list_scope.
Open Scope Z_scope.

Section P.
Context {O W : Type}.
Notation world := (world O W).
Notation entry := (entry O).

(** ** C48 *)
Lemma genuine_leaves (act : behaviour O W) cbs key tr :
  genuine act cbs tr -> leaves act cbs anytime key -> untouched key tr.
Proof.
  intros G L. eapply genuine_untouched; eauto. apply Forall_forall. intros p _. exact I.
Qed.

Lemma sized_batches k size items sizes (bs : list (Z * tstate O)) :
  Forall2 (sized size) items sizes -> batches_of k items bs ->
  Forall (fun p => has_size size (snd p)) bs
  /\ map (fun p => size_of size (snd p)) bs = firstn (List.length bs) sizes.
Proof.
  intros F. revert k bs. induction F as [|it n items sizes S F IH]; intros k [|[k1 b1] bs] H; simpl in *; auto; try tauto.
  - destruct H as (-> & B & H). destruct (IH _ _ H) as [F' E]. destruct (S _ B) as (ND & Sz & NI).
    split.
    + constructor; auto. split; eauto.
    + rewrite E. unfold size_of. simpl. rewrite Sz. auto.
Qed.
Lemma batches_of_app k (items : list (item O)) a b :
  batches_of k items (a ++ b) -> batches_of k items a.
Proof.
  revert k items. induction a as [|[k1 b1] a IH]; intros k items; simpl.
  - destruct items; simpl; auto.
  - destruct items; auto. intros (-> & B & H). repeat split; eauto.
Qed.

Lemma train_batches_prefix (act : behaviour O W) size cbs d st0 w s out a b :
  train act size cbs d st0 w = (s, out) -> wd_trace s = a ++ b ->
  exists k, batches_of k (da_items d) (batches a)
       /\ (leaves act cbs before_training "bp_step" -> k = 1)
       /\ genuine act cbs a.
Proof.
  intros H E. destruct (train_shape _ _ _ _ _ _ H)
    as (es1 & es2 & fin & k & T & _ & B1 & _ & _ & B2 & _ & B3 & K & G).
  exists k. split; [|split; auto].
  - assert (Bs : batches a ++ batches b = batches es2).
    { rewrite <- batches_app, <- E, T, !batches_app, B1, B3, app_nil_r. auto. }
    rewrite <- Bs in B2. eapply batches_of_app; eauto.
  - rewrite E in G. apply Forall_app in G. tauto.
Qed.

Lemma counters (act : behaviour O W) size cbs d sizes st0 w s out a ph c x seen r b :
  train act size cbs d st0 w = (s, out) ->
  proper act (da_items d) -> Forall2 (sized size) (da_items d) sizes -> size <> "bp_step" ->
  size <> "bp_samples" ->
  leaves act cbs anytime "bp_step" -> leaves act cbs anytime "bp_samples" ->
  wd_trace s = a ++ TCall ph c x seen r :: b ->
  let k := List.length (batches a) in
  dget seen "bp_step" = Some (VNum (Z.max 1 (Z.of_nat k)))
  /\ dget seen "bp_samples" = Some (VNum (zsum (firstn k sizes))).
Proof.
  intros H P Sz N1 N2 L1 L2 E k.
  destruct (train_faithful _ _ _ _ _ P H) as [_ F]. specialize (F _ _ _ _ _ _ _ E).
  destruct (train_batches_prefix H E) as (k0 & B & K & G).
  assert (K0 : k0 = 1) by (apply K; eapply leaves_phs; [|exact L1]; unfold anytime; auto). subst k0.
  destruct (sized_batches Sz B) as [Hs Es]. split.
  - rewrite F, visible_step; auto.
    + destruct (batches a) as [|p bs] eqn:Ba.
      * unfold initial. rewrite written_eq. auto.
      * rewrite <- Ba in *. destruct (@batches_of_last _ _ _ (batches a) B) as [b1 R]; [rewrite Ba; discriminate|].
        rewrite R. do 2 f_equal. subst k. rewrite Ba. cbn [List.length]. lia.
    + eapply genuine_leaves; eauto.
  - rewrite F, (@visible_samples O size _ 0 a N1 N2); auto.
    + rewrite Es. subst k. do 2 f_equal.
    + eapply genuine_leaves; eauto.
Qed.

(** ** C45 *)
Lemma batches_split (tr : list entry) n :
  (n < List.length (batches tr))%nat ->
  exists a k b c, tr = a ++ TBatch k b :: c /\ List.length (batches a) = n.
Proof.
  revert n. induction tr as [|e tr IH]; intros n L; simpl in L; [lia|].
  destruct e as [k b|ph c x s r].
  - destruct n as [|n].
    + exists [], k, b, tr. auto.
    + simpl in L. destruct (IH n) as (a & k' & b' & c & -> & N); [apply Nat.succ_lt_mono; exact L|].
      exists (TBatch k b :: a), k', b', c. simpl. split; auto.
  - destruct (IH n) as (a & k' & b' & c' & -> & N); [auto|].
    exists (TCall ph c x s r :: a), k', b', c'. split; auto.
Qed.
Lemma in_calls_inv (tr : list entry) ph c :
  In (ph, c) (calls tr) -> exists a x seen r b, tr = a ++ TCall ph c x seen r :: b.
Proof.
  induction tr as [|e tr IH]; simpl; [tauto|]. intros I. destruct e as [k b|ph' c' x s r]; simpl in I.
  - destruct (IH I) as (a & x & seen & r & b' & ->). exists (TBatch k b :: a), x, seen, r, b'. auto.
  - destruct I as [E|I].
    + injection E as -> ->. exists [], x, s, r, tr. auto.
    + destruct (IH I) as (a & x' & seen & r' & b' & ->).
      exists (TCall ph' c' x s r :: a), x', seen, r', b'. auto.
Qed.
Lemma same_id cbs c t : NoDup (map cb_id cbs) -> In c cbs -> In t cbs -> cb_id c = cb_id t -> c = t.
Proof.
  intros ND I J E. pose proof (filter_id_one _ _ ND I) as F1. pose proof (filter_id_one _ _ ND J) as F2.
  rewrite E, F2 in F1. congruence.
Qed.

Definition runs_on (it : item O) : Prop := it_stop it = Ok false /\ exists b, it_batch it = Ok b.

Lemma with_term_leaves (act : behaviour O W) id cbs phs key :
  leaves act cbs phs key -> leaves (with_terminator id act) cbs phs key.
Proof.
  intros L c ph x st w u I P. unfold with_terminator. destruct (Nat.eqb (cb_id c) id).
  - destruct ph; simpl; try discriminate; intros E; injection E as <-; auto.
  - apply L; auto.
Qed.
Lemma with_term_raises (act : behaviour O W) id cbs c ph x st w e :
  total act cbs anytime -> In c cbs ->
  snd (with_terminator id act c ph x st w) = Err e ->
  cb_id c = id /\ ph = PEndCycle /\ e = Shutdown.
Proof.
  intros T I. unfold with_terminator. destruct (Nat.eqb_spec (cb_id c) id).
  - destruct ph; simpl; try discriminate. intros E. injection E as <-. auto.
  - intros E. destruct (T c ph x st w I Logic.I) as [u U]. congruence.
Qed.
Lemma in_steps l k0 n i ph c :
  (i < n)%nat -> In (ph, c) (step_calls l (k0 + Z.of_nat i)) -> In (ph, c) (steps_calls l k0 n).
Proof.
  intros L I. unfold steps_calls. apply in_flat_map. exists i. split; auto. apply in_seq. lia.
Qed.
Lemma steps_no_opening ph l k0 n id :
  ph = PRestore \/ ph = PBeginTraining \/ ph = PEndTraining -> count ph id (steps_calls l k0 n) = 0%nat.
Proof.
  intros Ph. revert k0. induction n as [|n IH]; intros k; auto.
  rewrite steps_calls_S, count_app, IH. unfold step_calls.
  rewrite !count_app, !count_all_of_other; auto; destruct Ph as [->|[->| ->]]; discriminate.
Qed.

Lemma terminator_quiet_free (act : behaviour O W) id n t cbs (tr : list entry) :
  terminator id n = Ok t -> genuine (with_terminator id act) cbs tr -> quiet tr ->
  In (PEndCycle, t) (calls tr) -> False.
Proof.
  intros Te G Q I. apply in_calls_inv in I. destruct I as (a & x & seen & r & b & ->).
  unfold terminator in Te. destruct (0 <? n); [|discriminate]. injection Te as <-.
  apply Forall_app in G. destruct G as [_ G]. inversion G as [|? ? Hd _]; subst.
  destruct Hd as [_ [w A]]. unfold with_terminator in A. simpl in A. rewrite Nat.eqb_refl in A. simpl in A.
  subst r. apply Forall_app in Q. destruct Q as [_ Q]. inversion Q. discriminate.
Qed.

Lemma terminates (act : behaviour O W) id n t size cbs d st0 w :
  terminator id n = Ok t -> In t cbs -> NoDup (map cb_id cbs) ->
  total act cbs anytime ->
  leaves act cbs before_training "bp_step" -> leaves act cbs anytime "bp_samples" ->
  Forall (countable size) (da_items d) -> Forall runs_on (da_items d) ->
  n <= Z.of_nat (List.length (da_items d)) ->
  exists s, train (with_terminator id act) size cbs d st0 w = (s, Returned)
    /\ Z.of_nat (List.length (batches (wd_trace s))) = n
    /\ (forall c, In c cbs -> Z.of_nat (count PBackward (cb_id c) (calls (wd_trace s))) = n).
Proof.
  intros Te It ND Tot L1 L2 Cn Ro Le.
  assert (Tc : cb_cycle t = Some n /\ cb_id t = id /\ 0 < n).
  { unfold terminator in Te. destruct (Z.ltb_spec 0 n); [|discriminate]. injection Te as <-. auto. }
  destruct Tc as (Cy & Id & Pn).
  pose proof (with_term_leaves (id := id) L1) as L1'. pose proof (with_term_leaves (id := id) L2) as L2'.
  destruct (train (with_terminator id act) size cbs d st0 w) as [s out] eqn:H.
  destruct (train_shape _ _ _ _ _ _ H) as (_ & _ & _ & _ & _ & _ & _ & _ & _ & _ & _ & _ & _ & G).
  destruct (train_order_strict _ _ _ L2' Cn H) as (l & k0 & IO & K0 & D).
  specialize (K0 L1'). subst k0.
  assert (Il : In t l) by (destruct IO as [P _]; eapply Permutation_in; eauto).
  assert (NDl : NoDup (map cb_id l)).
  { destruct IO as [P _]. eapply Permutation_NoDup; [apply Permutation_map; exact P|auto]. }
  assert (RS : forall a ph c x seen e b, wd_trace s = a ++ TCall ph c x seen (Err e) :: b ->
                 c = t /\ ph = PEndCycle /\ e = Shutdown).
  { intros a ph c x seen e b E. rewrite E in G. apply Forall_app in G. destruct G as [_ G].
    inversion G as [|? ? Hd _]; subst. destruct Hd as [I [w' A]].
    destruct (with_term_raises Tot I A) as (Ei & -> & ->). split; auto. exact (@same_id cbs c t ND I It Ei). }
  assert (LC : forall k, last_of_cycle k t = true <-> k mod n = 0).
  { intros k. unfold last_of_cycle. rewrite Cy. replace (0 <? n) with true by (symmetry; apply Z.ltb_lt; auto).
    simpl. apply Z.eqb_eq. }
  set (N := Z.to_nat n).
  assert (IN : forall m, (N <= m)%nat -> In (PEndCycle, t) (steps_calls l 1 m)).
  { intros m Lm. apply in_steps with (i := (N - 1)%nat); [lia|].
    unfold step_calls. rewrite !in_app_iff, !in_all_of, !filter_In. right; right; right; right.
    split; auto. split; auto. apply LC. replace (1 + Z.of_nat (N - 1)) with n by lia.
    apply Z.mod_same. lia. }
  destruct D as [(m & e & tr0 & x & Cm & Tm & Qm & Rx & _)|[(Qt & Ct & _)|(main & fin & m & e & Tm & Cm & St & Cl)]].
  - exfalso. destruct x as [|ph c x seen [u|ex]]; try discriminate.
    destruct (RS _ _ _ _ _ _ _ Tm) as (-> & -> & _).
    assert (I : In (PEndCycle, t) (opening l)).
    { rewrite <- (firstn_skipn m). apply in_or_app. left. rewrite <- Cm, Tm. apply in_calls. }
    apply in_opening in I. destruct I; discriminate.
  - exfalso. eapply terminator_quiet_free; eauto. rewrite Ct. apply in_or_app. right. apply IN. lia.
  - destruct St as [St|(_ & _ & _ & F)]; [|tauto].
    destruct St as [(tr0 & x & Em & Qm & Rx)|(Qm & i & it & Ni & Rs & _)].
    2: { exfalso. apply nth_error_In in Ni. rewrite Forall_forall in Ro. destruct (Ro _ Ni) as [S0 [b B]].
         destruct Rs as [R|[R|[R _]]]; congruence. }
    destruct x as [|ph c x seen [u|ex]]; try discriminate. simpl in Rx. injection Rx as ->.
    assert (Tr : wd_trace s = tr0 ++ TCall ph c x seen (Err e) :: fin).
    { rewrite Tm, Em, <- app_assoc. auto. }
    destruct (RS _ _ _ _ _ _ _ Tr) as (-> & -> & ->).
    (* the step in which it stopped *)
    destruct (train_call_in_step _ _ _ _ _ _ _ _ _ _ H L1' Tr)
      as (a1 & k & b1 & a2 & rest & Ea & Ba & Kb & Pk & Ck); try discriminate.
    assert (Lk : last_of_cycle k t = true).
    { assert (I : In (PEndCycle, t) (step_calls (sort_cbs cbs) k))
        by (rewrite <- Ck; apply in_or_app; right; left; auto).
      apply in_step_calls in I. tauto. }
    apply LC in Lk. apply Z.mod_divide in Lk; [|lia]. destruct Lk as [q Kq].
    assert (G0 : genuine (with_terminator id act) cbs tr0).
    { rewrite Tr in G. apply Forall_app in G. tauto. }
    assert (Kn : k = n).
    { destruct (Z.eq_dec k n) as [|Nk]; auto. exfalso.
      assert (Lt : (N < List.length (batches tr0))%nat) 
        by (assert (0 < q) by nia; assert (q <> 1) by (intros ->; lia); assert (n < k) by nia; subst N; lia).
      destruct (batches_split Lt) as (a & k' & b' & c' & E & Nb).
      assert (E' : wd_trace s = a ++ TBatch k' b' :: (c' ++ TCall PEndCycle t x seen (Err Shutdown) :: fin)).
      { rewrite Tr, E, <- app_assoc. auto. }
      destruct (train_at_batch _ _ _ _ _ _ _ _ H L1' E') as [Ca _].
      eapply terminator_quiet_free with (tr := tr0); eauto.
      rewrite E, calls_app. apply in_or_app. left. rewrite Ca, Nb. apply in_or_app. right.
      apply in_steps with (i := (N - 1)%nat); [lia|].
      unfold step_calls. rewrite !in_app_iff, !in_all_of, !filter_In. right; right; right; right.
      split; auto. split; [apply incl_sort; auto|]. apply LC. replace (1 + Z.of_nat (N - 1)) with n by lia.
      apply Z.mod_same. lia. }
    (* end_training raises nothing *)
    assert (CF : calls fin = closing l /\ out = Returned /\ batches fin = []).
    { destruct Cl as [X [(Qf & Cf & Eo)|(tr1 & y & e' & rest' & Tf & Qf & Ry & Cf & Eo)]].
      - split; auto. split; auto. clear - X. induction X as [|y f Y X IH]; auto. destruct y; simpl; tauto.
      - exfalso. destruct y as [|phy cy xy sy [u|ey]]; try discriminate.
        assert (Tr' : wd_trace s = (tr0 ++ TCall PEndCycle t x seen (Err Shutdown) :: tr1)
                       ++ TCall phy cy xy sy (Err ey) :: []).
        { rewrite Tr, Tf, <- app_assoc. auto. }
        destruct (RS _ _ _ _ _ _ _ Tr') as (_ & -> & _).
        assert (I : In (PEndCycle, cy) (closing l)).
        { rewrite <- Cf, Tf. apply in_or_app. left. apply in_calls. }
        apply in_closing in I. discriminate. }
    destruct CF as (Cf & -> & Bf). exists s. split; auto. split.
    + rewrite Tr, batches_app. simpl. unfold batches in Bf |- *. simpl. rewrite Bf, app_nil_r.
      unfold batches in Kb. lia.
    + intros c I. rewrite Tr, calls_app, count_app. simpl.
      assert (Z0 : count PBackward (cb_id c) ((PEndCycle, t) :: calls fin) = 0%nat).
      { change ((PEndCycle, t) :: calls fin) with ([(PEndCycle, t)] ++ calls fin).
        rewrite count_app, Cf, count_closing by discriminate. auto. }
      rewrite Z0. rewrite Ea.
      assert (E' : wd_trace s = a1 ++ TBatch k b1 :: (a2 ++ TCall PEndCycle t x seen (Err Shutdown) :: fin)).
      { rewrite Tr, Ea, <- app_assoc. auto. }
      destruct (train_at_batch _ _ _ _ _ _ _ _ H L1' E') as [Ca Ka].
      rewrite calls_app. simpl. rewrite count_app, Ca, count_app, count_opening by discriminate.
      rewrite count_main; [|apply NoDup_sort; auto|apply incl_sort; auto|auto].
      (* in the last step *)
      assert (B1 : count PBackward (cb_id c) (calls a2) = 1%nat).
      { pose proof (@count_step _ k c PBackward (NoDup_sort _ ND) (@incl_sort cbs c I)) as T1. simpl in T1.
        rewrite <- Ck, count_app in T1.
        assert (Z1 : count PBackward (cb_id c) ((PEndCycle, t) :: rest) = 0%nat).
        { unfold step_calls in Ck. rewrite !app_assoc in Ck. symmetry in Ck. apply app_mid in Ck.
          destruct Ck as [(b' & E & _)|(a' & _ & E)].
          - exfalso. assert (J : In (PEndCycle, t) (calls a2 ++ (PEndCycle, t) :: b'))
              by (apply in_or_app; right; left; auto).
            rewrite <- E in J. rewrite !in_app_iff, !in_all_of in J.
            destruct J as [[[[J _]|[J _]]|[J _]]|[J _]]; discriminate.
          - apply count_prefix_zero with (rest := []) (whole := (PEndCycle, t) :: rest); [apply app_nil_r|].
            pose proof (@count_all_of_other PBackward PEndCycle (cb_id c) (filter (last_of_cycle k) (sort_cbs cbs))) as Z1.
            rewrite E, count_app in Z1. assert (PBackward <> PEndCycle) by discriminate. specialize (Z1 H0). lia. }
        lia. }
      rewrite B1. lia.
Qed.

(** With less data it does not stop. *)
Lemma keeps_running (act : behaviour O W) id n t size cbs d st0 w :
  terminator id n = Ok t -> In t cbs -> NoDup (map cb_id cbs) ->
  total act cbs anytime ->
  leaves act cbs before_training "bp_step" -> leaves act cbs anytime "bp_samples" ->
  Forall (countable size) (da_items d) -> Forall runs_on (da_items d) -> da_ends d = false ->
  Z.of_nat (List.length (da_items d)) < n ->
  exists s, train (with_terminator id act) size cbs d st0 w = (s, Running).
Proof.
  intros Te It ND Tot L1 L2 Cn Ro En Le.
  assert (Tc : cb_cycle t = Some n /\ cb_id t = id /\ 0 < n).
  { unfold terminator in Te. destruct (Z.ltb_spec 0 n); [|discriminate]. injection Te as <-. auto. }
  destruct Tc as (Cy & Id & Pn).
  pose proof (with_term_leaves (id := id) L1) as L1'. pose proof (with_term_leaves (id := id) L2) as L2'.
  destruct (train (with_terminator id act) size cbs d st0 w) as [s out] eqn:H.
  destruct (train_shape _ _ _ _ _ _ H) as (es1 & es2 & fin' & k' & Ts & _ & B1 & _ & _ & B2 & _ & B3 & _ & G).
  destruct (train_order_strict _ _ _ L2' Cn H) as (l & k0 & IO & K0 & D).
  specialize (K0 L1'). subst k0.
  assert (RS : forall a ph c x seen e b, wd_trace s = a ++ TCall ph c x seen (Err e) :: b ->
                 c = t /\ ph = PEndCycle /\ e = Shutdown).
  { intros a ph c x seen e b E. rewrite E in G. apply Forall_app in G. destruct G as [_ G].
    inversion G as [|? ? Hd _]; subst. destruct Hd as [I [w' A]].
    destruct (with_term_raises Tot I A) as (Ei & -> & ->). split; auto. exact (@same_id cbs c t ND I It Ei). }
  destruct D as [(m & e & tr0 & x & Cm & Tm & Qm & Rx & _)|[(Qt & Ct & Eo)|(main & fin & m & e & Tm & Cm & St & Cl)]].
  - exfalso. destruct x as [|ph c x seen [u|ex]]; try discriminate.
    destruct (RS _ _ _ _ _ _ _ Tm) as (-> & -> & _).
    assert (I : In (PEndCycle, t) (opening l)).
    { rewrite <- (firstn_skipn m). apply in_or_app. left. rewrite <- Cm, Tm. apply in_calls. }
    apply in_opening in I. destruct I; discriminate.
  - rewrite En in Eo. subst out. eauto.
  - exfalso. destruct St as [St|(_ & _ & _ & F)]; [|tauto].
    destruct St as [(tr0 & x & Em & Qm & Rx)|(Qm & i & it & Ni & Rs & _)].
    2: { apply nth_error_In in Ni. rewrite Forall_forall in Ro. destruct (Ro _ Ni) as [S0 [b B]].
         destruct Rs as [R|[R|[R _]]]; congruence. }
    destruct x as [|ph c x seen [u|ex]]; try discriminate.
    assert (Tr : wd_trace s = tr0 ++ TCall ph c x seen (Err ex) :: fin).
    { rewrite Tm, Em, <- app_assoc. auto. }
    destruct (RS _ _ _ _ _ _ _ Tr) as (-> & -> & ->).
    destruct (cycle_steps H L1' Tr) as [_ C]. destruct (C eq_refl) as (p & q & _ & Cp & Pp & Pq & Kq).
    rewrite Cy in Cp. injection Cp as <-.
    assert (Lb : (List.length (batches tr0) <= List.length (da_items d))%nat).
    { destruct (batches_of_firstn _ _ _ B2) as [_ L]. 
      assert (E : batches tr0 ++ batches (TCall PEndCycle t x seen (Err Shutdown) :: fin) = batches es2).
      { rewrite <- batches_app, <- Tr, Ts, !batches_app, B1, B3, app_nil_r. auto. }
      rewrite <- E, app_length in L. lia. }
    nia.
Qed.
End P.
