(** * TrainMore: cycles, the terminator, end_training and the counters *)
From Coq Require Import Permutation Sorted.
From Verif Require Import Py PyLemmas TrainModel TrainSpec TrainProofs TrainState TrainMain.
Set Implicit Arguments.
Open Scope string_scope.
Open Scope list_scope.
Open Scope Z_scope.

Lemma app_mid {A} (l1 l2 a : list A) x b :
  l1 ++ l2 = a ++ x :: b ->
  (exists b', l1 = a ++ x :: b' /\ b = b' ++ l2) \/ (exists a', a = l1 ++ a' /\ l2 = a' ++ x :: b).
Proof.
  revert a. induction l1 as [|y l1 IH]; simpl; intros a H.
  - right. exists a. auto.
  - destruct a as [|z a]; simpl in H.
    + injection H as <- <-. left. exists l1. auto.
    + injection H as <- H. destruct (IH _ H) as [(b' & E1 & E2)|(a' & E1 & E2)].
      * left. exists b'. subst l1. auto.
      * right. exists a'. subst a. auto.
Qed.

Section P.
Context {O W : Type}.
Context (act : behaviour O W).
Notation world := (world O W).
Notation entry := (entry O).

Lemma batches_nil_mid (a c : list entry) k b : batches (a ++ TBatch k b :: c) <> [].
Proof. rewrite batches_app. simpl. destruct (batches a); discriminate. Qed.

Lemma batches_cons k b (es : list entry) : batches (TBatch k b :: es) = (k, b) :: batches es.
Proof. auto. Qed.

Definition positions (cs : list callback) (k : Z) (es : list entry) : Prop :=
  (forall a k' b c, es = a ++ TBatch k' b :: c ->
      calls a = steps_calls cs k (List.length (batches a)) /\ k' = k + Z.of_nat (List.length (batches a)))
  /\ (forall a ph c x seen rr b, es = a ++ TCall ph c x seen rr :: b ->
        exists a1 b1 a2 rest, a = a1 ++ TBatch (k + Z.of_nat (List.length (batches a1))) b1 :: a2
          /\ batches a2 = []
          /\ calls a2 ++ (ph, c) :: rest = step_calls cs (k + Z.of_nat (List.length (batches a1)))).

Lemma follows_prefix sched (cause : list entry -> exn -> Prop) es r :
  follows sched cause es r -> exists rest, calls es ++ rest = sched.
Proof. destruct r; simpl; [intros [_ <-]; exists []; apply app_nil_r|tauto]. Qed.
Lemma in_calls (a b : list entry) ph c x seen rr : In (ph, c) (calls (a ++ TCall ph c x seen rr :: b)).
Proof. rewrite calls_app. simpl. apply in_or_app. right. left. auto. Qed.

Lemma loop_positions size cs k items (s s' : world) r :
  loop act size cs k items s = (s', r) ->
  exists es, wd_trace s' = wd_trace s ++ es /\ positions cs k es.
Proof.
  revert k s. induction items as [|it items IH]; simpl; intros k s H.
  - injection H as <- <-. exists []. rewrite app_nil_r. split; auto.
    split; intros [|]; discriminate.
  - destruct (one_step act size cs k it s) as [s1 r1] eqn:S1.
    destruct (one_step_follows _ _ _ _ _ _ S1) as (es1 & T1 & F1 & B1 & N1).
    assert (P1 : positions cs k es1).
    { destruct B1 as [->|(b & I & B1 & es' & E)]; [split; intros [|]; discriminate|].
      destruct (follows_prefix _ _ _ _ F1) as [rest R]. subst es1. simpl in R.
      assert (B' : batches es' = []) by (simpl in B1; congruence).
      split.
      - intros [|y a] k' b' c E; simpl in E.
        + injection E as <- <- <-. simpl. split; auto. lia.
        + injection E as <- E. rewrite E in B'. destruct (batches_nil_mid _ _ _ _ B').
      - intros [|y a] ph c x seen rr b' E; [discriminate|]. injection E as <- E.
        assert (Ba : batches a = []).
        { rewrite E, batches_app in B'. apply app_eq_nil in B'. tauto. }
        exists [], b, a, (calls b' ++ rest). simpl. rewrite Z.add_0_r. split; auto. split; auto.
        rewrite <- R, E, calls_app. simpl. rewrite <- app_assoc. auto. }
    destruct r1 as [u|e]; simpl in H.
    + destruct u. apply IH in H. destruct H as (es2 & T2 & P2).
      exists (es1 ++ es2). rewrite T2, T1, <- app_assoc. split; auto.
      destruct F1 as [_ C1]. destruct P1 as [P1a P1b], P2 as [P2a P2b].
      assert (L1 : List.length (batches es1) = 1%nat).
      { destruct B1 as [->|(b & _ & -> & _)]; auto. destruct (N1 eq_refl eq_refl). }
      split.
      * intros a k' b c E. apply app_mid in E. destruct E as [(b' & E & _)|(a' & Ea & E)].
        -- eapply P1a; eauto.
        -- destruct (P2a _ _ _ _ E) as [Ca Ka]. subst a.
           rewrite calls_app, batches_app, app_length, L1, C1, Ca. cbn [Nat.add].
           rewrite steps_calls_S. split; auto. lia.
      * intros a ph c x seen rr b E. apply app_mid in E. destruct E as [(b' & E & _)|(a' & Ea & E)].
        -- eapply P1b; eauto.
        -- destruct (P2b _ _ _ _ _ _ _ E) as (a1 & b1 & a2 & rest & E1 & B2 & C2).
           exists (es1 ++ a1), b1, a2, rest. subst a a'. rewrite batches_app, app_length, L1.
           replace (k + Z.of_nat (1 + Datatypes.length (batches a1)))
             with (k + 1 + Z.of_nat (Datatypes.length (batches a1))) by lia.
           rewrite <- app_assoc. auto.
    + injection H as <- <-. exists es1. auto.
Qed.

Lemma pos_nil cs k : positions cs k ([] : list entry).
Proof. split; intros [|]; discriminate. Qed.

(** The whole trace. *)
Lemma train_shape size cbs d st0 w s out :
  train act size cbs d st0 w = (s, out) ->
  let l := sort_cbs cbs in
  exists es1 es2 fin k, wd_trace s = es1 ++ es2 ++ fin
   /\ (exists rest, calls es1 ++ rest = opening l) /\ batches es1 = []
   /\ (es2 ++ fin <> [] -> calls es1 = opening l)
   /\ positions l k es2 /\ batches_of k (da_items d) (batches es2)
   /\ (exists rest, calls fin ++ rest = closing l) /\ batches fin = []
   /\ (leaves act cbs before_training "bp_step" -> k = 1)
   /\ genuine act cbs (wd_trace s).
Proof.
  intros H l. 
  assert (G0 : forall s0 s1 r1,
     wd_trace s0 = [] ->
     andthen (run_phase act PRestore None l s0) (run_phase act PBeginTraining None l) = (s1, r1) ->
     genuine act l (wd_trace s1)).
  { intros * E A. eapply phases_genuine; [apply incl_refl| |exact A|rewrite E; constructor].
    intros *. apply run_phase_genuine. apply incl_refl. }
  assert (GI : forall tr, genuine act l tr -> genuine act cbs tr).
  { intros tr. apply Forall_impl. intros [|]; auto. intros [I X]. split; auto. apply sort_incl. auto. }
  destruct (train_cases _ _ _ _ _ _ H) as (s1 & r1 & A & C). fold l in A, C.
  destruct (opening_follows _ _ _ A) as (es & T & F & B). simpl in T.
  assert (G1 : genuine act l (wd_trace s1)) by (eapply G0; [|exact A]; reflexivity).
  destruct r1 as [u|e].
  2: { destruct C as [-> ->]. exists es, [], [], 1. rewrite !app_nil_r. split; auto.
       split; [eapply follows_prefix; eauto|]. split; auto. split; [simpl; congruence|].
       split; [apply pos_nil|]. split; [destruct (da_items d); exact I|].
       split; [exists (closing l); auto|]. auto. }
  destruct u.
  assert (FIN : forall s2 r2 ends, finish act l (s2, r2) ends = (s, out) ->
     genuine act l (wd_trace s2) ->
     exists fin, wd_trace s = wd_trace s2 ++ fin /\ (exists rest, calls fin ++ rest = closing l)
        /\ batches fin = [] /\ genuine act l (wd_trace s)).
  { intros s2 r2 ends Fi G2. apply finish_cases in Fi. simpl in Fi. destruct r2 as [u|e].
    - destruct Fi as [-> _]. exists []. rewrite app_nil_r. repeat split; auto. exists (closing l); auto.
    - destruct Fi as (r3 & R & _). pose proof (run_phase_genuine _ _ _ (incl_refl l) R G2) as G3.
      destruct (run_phase_follows _ _ _ _ _ R) as (fin & T3 & F3 & B3 & _).
      exists fin. repeat split; auto. eapply follows_prefix; eauto. }
  destruct F as [Q C1].
  assert (K1 : leaves act cbs before_training "bp_step" -> dget (wd_state s1) "bp_step" = Some (VNum 1)).
  { intros Lv. pose proof (first_step_1 _ _ Lv A) as K. unfold first_step in K.
    destruct (dget (wd_state s1) "bp_step") as [[k|]|]; congruence. }
  destruct (dget (wd_state s1) "bp_step") as [[k|o]|] eqn:K.
  - destruct (loop act size l k (da_items d) s1) as [s2 r2] eqn:L.
    destruct (loop_positions _ _ _ _ _ L) as (es2 & T2 & P2).
    destruct (loop_batches _ _ _ _ _ _ L) as (es2' & T2' & B2 & _).
    rewrite T2 in T2'. apply app_inv_head in T2'. subst es2'.
    destruct (FIN _ _ _ C) as (fin & T3 & F3 & B3 & G3); [eapply loop_genuine; eauto|].
    exists es, es2, fin, k. rewrite T3, T2, T, <- app_assoc. split; auto. split.
    + exists []. rewrite app_nil_r. auto.
    + split; auto. split; auto. split; auto. split; auto. split; auto. split; auto.
      split; [intros Lv; specialize (K1 Lv); congruence|].
      rewrite T3, T2, T, <- app_assoc in G3. auto.
  - destruct (FIN _ _ _ C) as (fin & T3 & F3 & B3 & G3); auto.
    exists es, [], fin, 1. rewrite T3, T. split; auto. split.
    + exists []. rewrite app_nil_r. auto.
    + split; auto. split; auto. split; [apply pos_nil|]. split; [destruct (da_items d); exact I|].
      split; auto. split; auto. split; auto. rewrite T3, T in G3. auto.
  - destruct (FIN _ _ _ C) as (fin & T3 & F3 & B3 & G3); auto.
    exists es, [], fin, 1. rewrite T3, T. split; auto. split.
    + exists []. rewrite app_nil_r. auto.
    + split; auto. split; auto. split; [apply pos_nil|]. split; [destruct (da_items d); exact I|].
      split; auto. split; auto. split; auto. rewrite T3, T in G3. auto.
Qed.

(** ** C44 *)
Lemma in_all_of ph l ph' c : In (ph', c) (all_of ph l) <-> ph' = ph /\ In c l.
Proof.
  unfold all_of. rewrite in_map_iff. split.
  - intros (x & E & I). injection E as <- <-. auto.
  - intros [-> I]. eauto.
Qed.
Lemma in_step_calls l k ph c :
  In (ph, c) (step_calls l k) ->
  In c l /\ (ph = PBeginCycle -> first_of_cycle k c = true) /\ (ph = PEndCycle -> last_of_cycle k c = true)
  /\ ph <> PRestore /\ ph <> PBeginTraining /\ ph <> PEndTraining.
Proof.
  unfold step_calls. rewrite !in_app_iff, !in_all_of, !filter_In.
  intros [[-> [I F]]|[[-> I]|[[-> I]|[[-> I]|[-> [I F]]]]]]; repeat split; auto; discriminate.
Qed.
Lemma in_opening l ph c : In (ph, c) (opening l) -> ph = PRestore \/ ph = PBeginTraining.
Proof. unfold opening. rewrite in_app_iff, !in_all_of. tauto. Qed.
Lemma in_closing l ph c : In (ph, c) (closing l) -> ph = PEndTraining.
Proof. unfold closing. rewrite in_all_of. tauto. Qed.
Lemma prefix_in {A} (a rest l : list A) x : a ++ rest = l -> In x a -> In x l.
Proof. intros <- I. apply in_or_app; auto. Qed.

Lemma train_call_in_step size cbs d st0 w s out a ph c x seen rr b :
  train act size cbs d st0 w = (s, out) ->
  leaves act cbs before_training "bp_step" ->
  wd_trace s = a ++ TCall ph c x seen rr :: b ->
  ph <> PRestore -> ph <> PBeginTraining -> ph <> PEndTraining ->
  exists a1 k b1 a2 rest, a = a1 ++ TBatch k b1 :: a2 /\ batches a2 = []
    /\ k = Z.of_nat (List.length (batches a)) /\ 0 < k
    /\ calls a2 ++ (ph, c) :: rest = step_calls (sort_cbs cbs) k.
Proof.
  intros H Lv E N1 N2 N3.
  destruct (train_shape _ _ _ _ _ H) as (es1 & es2 & fin & k & T & [r1 R1] & B1 & _ & P & _ & [r3 R3] & B3 & K & _).
  specialize (K Lv). subst k. rewrite T in E. apply app_mid in E.
  destruct E as [(b' & E & _)|(a' & Ea & E)].
  - assert (I : In (ph, c) (calls es1)) by (rewrite E; apply in_calls).
    apply (prefix_in _ _ _ R1) in I. apply in_opening in I. tauto.
  - apply app_mid in E. destruct E as [(b' & E & _)|(a'' & Ea' & E)].
    + destruct P as [_ P]. destruct (P _ _ _ _ _ _ _ E) as (a1 & b1 & a2 & rest & E1 & B2 & C2). subst a a'.
      exists (es1 ++ a1), (1 + Z.of_nat (List.length (batches a1))), b1, a2, rest.
      assert (LB : List.length (batches (es1 ++ a1 ++ TBatch (1 + Z.of_nat (List.length (batches a1))) b1 :: a2))
                   = S (List.length (batches a1))).
      { rewrite !batches_app, B1, batches_cons, B2. simpl app. rewrite app_length. simpl. lia. }
      rewrite LB. split; [apply app_assoc|]. split; auto. split; [lia|]. split; [lia|auto].
    + assert (I : In (ph, c) (calls fin)) by (rewrite E; apply in_calls).
      apply (prefix_in _ _ _ R3) in I. apply in_closing in I. tauto.
Qed.

Lemma first_of_cycle_spec k c : 0 < k -> first_of_cycle k c = true ->
  exists p q, cb_cycle c = Some p /\ 0 < p /\ 0 <= q /\ k = q * p + 1.
Proof.
  unfold first_of_cycle. destruct (cb_cycle c) as [p|]; [|discriminate]. intros K H.
  apply andb_prop in H. destruct H as [P M]. apply Z.ltb_lt in P. apply Z.eqb_eq in M.
  exists p, ((k - 1) / p). repeat split; auto; try (apply Z.div_pos; lia).
  pose proof (Z.div_mod (k - 1) p). lia.
Qed.
Lemma last_of_cycle_spec k c : 0 < k -> last_of_cycle k c = true ->
  exists p q, cb_cycle c = Some p /\ 0 < p /\ 0 < q /\ k = q * p.
Proof.
  unfold last_of_cycle. destruct (cb_cycle c) as [p|]; [|discriminate]. intros K H.
  apply andb_prop in H. destruct H as [P M]. apply Z.ltb_lt in P. apply Z.eqb_eq in M.
  exists p, (k / p). pose proof (Z.div_mod k p). repeat split; auto; nia.
Qed.

(** Counting *)
Lemma count_app ph id a b : count ph id (a ++ b) = (count ph id a + count ph id b)%nat.
Proof. unfold count. rewrite filter_app, app_length. auto. Qed.
Lemma count_all_of_other ph ph' id l : ph <> ph' -> count ph id (all_of ph' l) = 0%nat.
Proof.
  intros N. unfold count, all_of. induction l as [|c r IH]; simpl; auto.
  destruct ph, ph'; try congruence; simpl; auto.
Qed.
Lemma phase_eqb_refl ph : phase_eqb ph ph = true.
Proof. destruct ph; auto. Qed.
Lemma count_all_of ph id l :
  count ph id (all_of ph l) = List.length (filter (fun c => Nat.eqb (cb_id c) id) l).
Proof.
  unfold count, all_of. induction l as [|c r IH]; simpl; auto. rewrite phase_eqb_refl. simpl.
  destruct (Nat.eqb (cb_id c) id); simpl; auto.
Qed.
Lemma filter_id_none (l : list callback) id :
  ~ In id (map cb_id l) -> filter (fun c => Nat.eqb (cb_id c) id) l = [].
Proof.
  induction l as [|c r IH]; simpl; intros N; auto.
  destruct (Nat.eqb_spec (cb_id c) id); [tauto|]. apply IH. tauto.
Qed.
Lemma filter_id_one (l : list callback) c :
  NoDup (map cb_id l) -> In c l -> filter (fun x => Nat.eqb (cb_id x) (cb_id c)) l = [c].
Proof.
  induction l as [|d r IH]; simpl; intros ND I; [tauto|]. inversion ND; subst.
  destruct I as [->|I].
  - rewrite Nat.eqb_refl, filter_id_none; auto.
  - destruct (Nat.eqb_spec (cb_id d) (cb_id c)) as [E|N]; [|auto].
    destruct H1. rewrite E. apply in_map. auto.
Qed.
Lemma filter_comm {A} (f g : A -> bool) l : filter f (filter g l) = filter g (filter f l).
Proof.
  rewrite !filter_filter'. apply filter_ext. intros x. apply andb_comm.
Qed.
Lemma count_filtered (l : list callback) c (g : callback -> bool) :
  NoDup (map cb_id l) -> In c l ->
  List.length (filter (fun x => Nat.eqb (cb_id x) (cb_id c)) (filter g l)) = if g c then 1%nat else 0%nat.
Proof.
  intros ND I. rewrite filter_comm, (filter_id_one _ _ ND I). simpl. destruct (g c); auto.
Qed.
Lemma count_step l k c ph :
  NoDup (map cb_id l) -> In c l ->
  count ph (cb_id c) (step_calls l k)
  = match ph with
    | PBeginCycle => if first_of_cycle k c then 1%nat else 0%nat
    | PEndCycle => if last_of_cycle k c then 1%nat else 0%nat
    | PBeginBatch | PBackward | PEndBatch => 1%nat
    | _ => 0%nat
    end.
Proof.
  intros ND I. unfold step_calls. rewrite !count_app.
  destruct ph; rewrite ?count_all_of, ?count_all_of_other, ?count_filtered, ?filter_id_one by (auto; discriminate);
    simpl; try lia; try (destruct (first_of_cycle k c); lia); destruct (last_of_cycle k c); lia.
Qed.

Lemma div_succ m p : 0 < p -> (m + 1) / p = m / p + (if (m + 1) mod p =? 0 then 1 else 0).
Proof.
  intros P. pose proof (Z.div_mod (m + 1) p). pose proof (Z.mod_pos_bound (m + 1) p P).
  pose proof (Z.div_mod m p). pose proof (Z.mod_pos_bound m p P).
  destruct (Z.eqb_spec ((m + 1) mod p) 0); nia.
Qed.
Lemma count_begins l c p n :
  NoDup (map cb_id l) -> In c l -> cb_cycle c = Some p -> 0 < p ->
  Z.of_nat (count PBeginCycle (cb_id c) (steps_calls l 1 n)) = (Z.of_nat n + p - 1) / p.
Proof.
  intros ND I C P. induction n as [|n IH].
  - unfold steps_calls. simpl. rewrite Z.div_small; lia.
  - rewrite steps_calls_snoc, count_app, count_step by auto. rewrite Nat2Z.inj_add, IH.
    unfold first_of_cycle. rewrite C. replace (0 <? p) with true by (symmetry; apply Z.ltb_lt; auto).
    replace (1 + Z.of_nat n - 1) with (Z.of_nat n) by lia. cbn [andb].
    replace (Z.of_nat (S n) + p - 1) with (Z.of_nat n + p - 1 + 1) by lia.
    rewrite (div_succ _ P). f_equal.
    replace (Z.of_nat n + p - 1 + 1) with (Z.of_nat n + 1 * p) by lia. rewrite Z.mod_add by lia.
    destruct (Z.of_nat n mod p =? 0); auto.
Qed.
Lemma count_ends l c p n :
  NoDup (map cb_id l) -> In c l -> cb_cycle c = Some p -> 0 < p ->
  Z.of_nat (count PEndCycle (cb_id c) (steps_calls l 1 n)) = Z.of_nat n / p.
Proof.
  intros ND I C P. induction n as [|n IH].
  - unfold steps_calls. simpl. rewrite Z.div_small; lia.
  - rewrite steps_calls_snoc, count_app, count_step by auto. rewrite Nat2Z.inj_add, IH.
    unfold last_of_cycle. rewrite C. replace (0 <? p) with true by (symmetry; apply Z.ltb_lt; auto).
    replace (1 + Z.of_nat n) with (Z.of_nat n + 1) by lia. cbn [andb].
    replace (Z.of_nat (S n)) with (Z.of_nat n + 1) by lia.
    rewrite (div_succ _ P). destruct ((Z.of_nat n + 1) mod p =? 0); auto.
Qed.
Lemma count_no_cycle l c ph n :
  NoDup (map cb_id l) -> In c l ->
  match cb_cycle c with Some p => p <= 0 | None => True end ->
  ph = PBeginCycle \/ ph = PEndCycle ->
  count ph (cb_id c) (steps_calls l 1 n) = 0%nat.
Proof.
  intros ND I C Ph. induction n as [|n IH]; auto.
  rewrite steps_calls_snoc, count_app, count_step by auto. rewrite IH.
  unfold first_of_cycle, last_of_cycle. destruct (cb_cycle c) as [p|].
  - replace (0 <? p) with false by (symmetry; apply Z.ltb_ge; auto). simpl.
    destruct Ph; subst; auto.
  - destruct Ph; subst; auto.
Qed.
Lemma count_main l c ph n :
  NoDup (map cb_id l) -> In c l -> ph = PBeginBatch \/ ph = PBackward \/ ph = PEndBatch ->
  count ph (cb_id c) (steps_calls l 1 n) = n.
Proof.
  intros ND I Ph. induction n as [|n IH]; auto.
  rewrite steps_calls_snoc, count_app, count_step by auto. rewrite IH.
    destruct Ph as [->|[->| ->]]; lia.
Qed.
Lemma count_opening l id ph : ph <> PRestore -> ph <> PBeginTraining -> count ph id (opening l) = 0%nat.
Proof. intros. unfold opening. rewrite count_app, !count_all_of_other; auto. Qed.
Lemma NoDup_sort cbs : NoDup (map cb_id cbs) -> NoDup (map cb_id (sort_cbs cbs)).
Proof. apply Permutation_NoDup. apply Permutation_map, sort_perm. Qed.

(** The hooks called before batch k. *)
Lemma train_at_batch size cbs d st0 w s out a k b c :
  train act size cbs d st0 w = (s, out) ->
  leaves act cbs before_training "bp_step" ->
  wd_trace s = a ++ TBatch k b :: c ->
  calls a = opening (sort_cbs cbs) ++ steps_calls (sort_cbs cbs) 1 (List.length (batches a))
  /\ k = 1 + Z.of_nat (List.length (batches a)).
Proof.
  intros H Lv E.
  destruct (train_shape _ _ _ _ _ H) as (es1 & es2 & fin & k' & T & [r1 R1] & B1 & C1 & P & _ & [r3 R3] & B3 & K & _).
  specialize (K Lv). subst k'. rewrite T in E. apply app_mid in E.
  destruct E as [(b' & E & _)|(a' & Ea & E)].
  - rewrite E in B1. destruct (batches_nil_mid _ _ _ _ B1).
  - assert (NE : es2 ++ fin <> []) by (rewrite E; destruct a'; discriminate).
    specialize (C1 NE).
    apply app_mid in E. destruct E as [(b' & E & _)|(a'' & Ea' & E)].
    + destruct P as [P _]. destruct (P _ _ _ _ E) as [Pc Pk]. subst a.
      rewrite batches_app, B1, calls_app, C1. simpl app. split; [congruence|auto].
    + rewrite E in B3. destruct (batches_nil_mid _ _ _ _ B3).
Qed.

(** ** C47 and C48 *)
Lemma in_batches_of k items bs n k' b :
  batches_of k items bs -> nth_error bs n = Some (k', b) ->
  k' = k + Z.of_nat n /\ exists it : item O, nth_error items n = Some it /\ it_batch it = Ok b.
Proof.
  revert k items bs. induction n as [|n IH]; intros k items [|[k1 b1] bs] H E; try discriminate.
  - simpl in *. injection E as -> ->. destruct items as [|it items]; [destruct H|].
    destruct H as (-> & B & _). split; [lia|]. eauto.
  - simpl in *. destruct items as [|it items]; [destruct H|]. destruct H as (_ & _ & H).
    destruct (IH _ _ _ H E) as [-> X]. split; [lia|]. auto.
Qed.
Lemma batches_of_firstn k items bs :
  batches_of k items bs ->
  map (fun p => Ok (snd p)) bs = firstn (List.length bs) (map (@it_batch O) items)
  /\ (List.length bs <= List.length items)%nat.
Proof.
  revert k bs. induction items as [|it items IH]; intros k [|[k1 b1] bs] H; simpl in *; auto; try tauto.
  - split; auto; lia.
  - destruct H as (-> & B & H). destruct (IH _ _ H) as [E L]. rewrite B, E. split; auto; lia.
Qed.
Lemma batches_of_last k (items : list (item O)) bs :
  batches_of k items bs -> bs <> [] ->
  exists b, rev bs = (k + Z.of_nat (List.length bs) - 1, b) :: tl (rev bs).
Proof.
  intros H N. destruct bs as [|p bs] using rev_ind; [congruence|]. clear IHbs.
  rewrite rev_app_distr, app_length. simpl. destruct p as [k' b]. exists b. f_equal. f_equal.
  destruct (@in_batches_of k items (bs ++ [(k', b)]) (List.length bs) k' b H) as [E _].
  - rewrite nth_error_app2, Nat.sub_diag; auto.
  - lia.
Qed.
End P.
