(** * TrainProofs: proofs about training runs *)
From Coq Require Import Permutation Sorted.
From Verif Require Import Py PyLemmas TrainModel TrainSpec.
Set Implicit Arguments.
Open Scope string_scope.
Open Scope list_scope.
Open Scope Z_scope.

(** ** The order of the callbacks *)
Lemma insert_perm c l : Permutation (c :: l) (insert_cb c l).
Proof.
  induction l as [|d r IH]; simpl; auto.
  destruct (cb_order c <=? cb_order d); auto.
  apply Permutation_trans with (d :: c :: r); [constructor|constructor; auto].
Qed.
Lemma sort_perm l : Permutation l (sort_cbs l).
Proof.
  induction l as [|c r IH]; simpl; auto.
  apply Permutation_trans with (c :: sort_cbs r); [constructor; auto|apply insert_perm].
Qed.
Lemma insert_sorted c l :
  StronglySorted (fun a b => cb_order a <= cb_order b) l ->
  StronglySorted (fun a b => cb_order a <= cb_order b) (insert_cb c l).
Proof.
  induction l as [|d r IH]; simpl; intros H; [constructor; [constructor|constructor]|].
  inversion H; subst. destruct (Z.leb_spec (cb_order c) (cb_order d)).
  - constructor; auto. constructor; auto.
    eapply Forall_impl; [|exact H3]. simpl; intros; lia.
  - constructor; auto.
    apply (Permutation_Forall (insert_perm c r)). constructor; auto. lia.
Qed.
Lemma sort_sorted l : StronglySorted (fun a b => cb_order a <= cb_order b) (sort_cbs l).
Proof. induction l; simpl; [constructor|apply insert_sorted; auto]. Qed.
Lemma insert_filter c l o :
  StronglySorted (fun a b => cb_order a <= cb_order b) l ->
  filter (fun x => cb_order x =? o) (insert_cb c l) = filter (fun x => cb_order x =? o) (c :: l).
Proof.
  induction l as [|d r IH]; intros H; auto.
  inversion H; subst. cbn [insert_cb]. destruct (Z.leb_spec (cb_order c) (cb_order d)); auto.
  simpl. rewrite IH by auto. simpl.
  destruct (Z.eqb_spec (cb_order d) o); destruct (Z.eqb_spec (cb_order c) o); auto. lia.
Qed.
Lemma sort_filter l o :
  filter (fun x => cb_order x =? o) (sort_cbs l) = filter (fun x => cb_order x =? o) l.
Proof.
  induction l as [|c r IH]; auto. cbn [sort_cbs fold_right].
  rewrite insert_filter by apply sort_sorted. simpl. fold (sort_cbs r). rewrite IH. auto.
Qed.
Lemma sort_in_order l : in_order l (sort_cbs l).
Proof. split; [apply sort_perm|split; [apply sort_sorted|intros; apply sort_filter]]. Qed.

Lemma filter_filter' {A} (f g : A -> bool) l :
  filter f (filter g l) = filter (fun x => g x && f x) l.
Proof.
  induction l as [|x r IH]; simpl; auto. destruct (g x) eqn:G; simpl; [|auto].
  destruct (f x); simpl; congruence.
Qed.
Lemma begin_cbs_eq k l : begin_cycle_cbs k l = filter (first_of_cycle k) l.
Proof.
  unfold begin_cycle_cbs. rewrite filter_filter'. apply filter_ext. intros c.
  unfold is_cyclic, cycle_mod, first_of_cycle. destruct (cb_cycle c); auto.
Qed.
Lemma end_cbs_eq k l : end_cycle_cbs k l = filter (last_of_cycle k) l.
Proof.
  unfold end_cycle_cbs. rewrite filter_filter'. apply filter_ext. intros c.
  unfold is_cyclic, cycle_mod, last_of_cycle. destruct (cb_cycle c); auto.
Qed.

Section P.
Context {O W : Type}.
Context (act : behaviour O W).
Notation world := (world O W).
Notation entry := (entry O).

Lemma calls_app (a b : list entry) : calls (a ++ b) = calls a ++ calls b.
Proof. unfold calls. apply flat_map_app. Qed.
Lemma batches_app (a b : list entry) : batches (a ++ b) = batches a ++ batches b.
Proof. unfold batches. apply flat_map_app. Qed.
Lemma quiet_app (a b : list entry) : quiet a -> quiet b -> quiet (a ++ b).
Proof. intros A B. apply Forall_app; auto. Qed.

Lemma steps_calls_S l k n :
  steps_calls l k (S n) = step_calls l k ++ steps_calls l (k + 1) n.
Proof.
  unfold steps_calls. cbn [seq flat_map]. rewrite Z.add_0_r. f_equal.
  rewrite <- seq_shift. rewrite !flat_map_concat_map, map_map. f_equal.
  apply map_ext. intros i. f_equal. lia.
Qed.
Lemma steps_calls_snoc l k n :
  steps_calls l k (S n) = steps_calls l k n ++ step_calls l (k + Z.of_nat n).
Proof.
  unfold steps_calls. rewrite seq_S, flat_map_app. simpl. rewrite app_nil_r. auto.
Qed.

(** [es] is what is added to the trace by following [sched]; [cause] are the
    other ways of stopping. *)
Definition follows (sched : list (phase * callback)) (cause : list entry -> exn -> Prop)
  (es : list entry) (r : res unit) : Prop :=
  match r with
  | Ok _ => quiet es /\ calls es = sched
  | Err e =>
      (exists rest, calls es ++ rest = sched)
      /\ ((exists es0 x, es = es0 ++ [x] /\ quiet es0 /\ raises x = Some e)
          \/ (quiet es /\ cause es e))
  end.
Definition never : list entry -> exn -> Prop := fun _ _ => False.

Lemma follows_app s1 s2 c1 c2 es1 es2 r :
  follows s1 c1 es1 (Ok tt) -> follows s2 c2 es2 r ->
  follows (s1 ++ s2) (fun es e => exists es', es = es1 ++ es' /\ c2 es' e) (es1 ++ es2) r.
Proof.
  intros [Q1 C1] H2. destruct r as [u|e]; simpl in *.
  - destruct H2 as [Q2 C2]. split; [apply quiet_app; auto|]. rewrite calls_app. congruence.
  - destruct H2 as [[rest R] D]. split.
    + exists rest. rewrite calls_app, C1, <- app_assoc, R. auto.
    + destruct D as [(es0 & x & E & Q & Rx)|[Q C]].
      * left. exists (es1 ++ es0), x. subst es2. rewrite app_assoc. split; auto. split; auto.
        apply quiet_app; auto.
      * right. split; [apply quiet_app; auto|]. exists es2. auto.
Qed.
Lemma follows_weaken s s' (c c' : list entry -> exn -> Prop) es e :
  (exists rest, s' = s ++ rest) -> (forall e, c es e -> c' es e) ->
  follows s c es (Err e) -> follows s' c' es (Err e).
Proof.
  intros [rest S'] C [[r R] D]. split.
  - exists (r ++ rest). rewrite app_assoc, R. auto.
  - destruct D as [D|[Q D]]; auto.
Qed.
Lemma follows_cause s (c c' : list entry -> exn -> Prop) es r :
  (forall e, c es e -> c' es e) -> follows s c es r -> follows s c' es r.
Proof. intros C. destruct r; simpl; auto. intros [R [D|[Q D]]]; auto. Qed.

Lemma run_phase_follows ph x cs (s : world) s' r :
  run_phase act ph x cs s = (s', r) ->
  exists es, wd_trace s' = wd_trace s ++ es /\ follows (all_of ph cs) never es r /\ batches es = []
        /\ Forall (fun e => match e with TCall _ _ x' _ _ => x' = x | _ => False end) es.
Proof.
  revert s. induction cs as [|c cs IH]; simpl; intros s H.
  - injection H as <- <-. exists []. rewrite app_nil_r. repeat split; constructor.
  - destruct (act c ph x (wd_state s) (wd_world s)) as [w [u|e]] eqn:A.
    + apply IH in H. destruct H as (es & T & F & B & X). simpl in T.
      exists (TCall ph c x (wd_state s) (Ok u) :: es). rewrite T, <- app_assoc.
      split; [auto|split; [|split; [auto|]]].
      * change (all_of ph (c :: cs)) with ([(ph, c)] ++ all_of ph cs).
        change (TCall ph c x (wd_state s) (Ok u) :: es)
          with ([TCall ph c x (wd_state s) (Ok u)] ++ es).
        apply (@follows_cause _ (fun es e => exists es', es = [TCall ph c x (wd_state s) (Ok u)] ++ es'
                                              /\ never es' e)).
        -- intros e (es' & _ & []).
        -- apply (@follows_app [(ph, c)] (all_of ph cs) never never); [|exact F].
           split; [repeat constructor|reflexivity].
      * constructor; auto.
    + injection H as <- <-. exists [TCall ph c x (wd_state s) (Err e)]. simpl.
      repeat split; auto.
      * exists (all_of ph cs). reflexivity.
      * left. exists [], (TCall ph c x (wd_state s) (Err e)). repeat split. constructor.
Qed.

Lemma andthen_follows s1 s2 c2 (p : world * res unit) f s' r es0 :
  (exists es1, wd_trace (fst p) = es0 ++ es1 /\ follows s1 never es1 (snd p) /\ batches es1 = []) ->
  (forall s s' r, f s = (s', r) ->
     exists es2, wd_trace s' = wd_trace s ++ es2 /\ follows s2 c2 es2 r /\ batches es2 = []) ->
  (forall es es', c2 es' es -> c2 es' es) ->
  andthen p f = (s', r) ->
  exists es, wd_trace s' = es0 ++ es
   /\ follows (s1 ++ s2) (fun es e => exists es1 es', es = es1 ++ es' /\ c2 es' e) es r
   /\ batches es = [].
Proof.
  destruct p as [s [u|e]]; simpl; intros (es1 & T1 & F1 & B1) H2 _ H.
  - destruct (H2 _ _ _ H) as (es2 & T2 & F2 & B2). destruct u.
    exists (es1 ++ es2). rewrite T2, T1, <- app_assoc. split; [auto|split].
    + apply (@follows_cause _ (fun es e => exists es', es = es1 ++ es' /\ c2 es' e)).
      * intros e (es' & -> & C). eauto.
      * apply (@follows_app s1 s2 never c2); auto.
    + rewrite batches_app, B1, B2. auto.
  - injection H as <- <-. exists es1. split; [auto|split; auto].
    eapply (@follows_weaken s1 _ never); [eauto| |exact F1]. intros ? [].
Qed.

(** Phases in sequence. *)
Lemma phases_follow ph cs f s2 (s s' : world) r :
  (forall s s' r, f s = (s', r) ->
     exists es2, wd_trace s' = wd_trace s ++ es2 /\ follows s2 never es2 r /\ batches es2 = []) ->
  andthen (run_phase act ph None cs s) f = (s', r) ->
  exists es, wd_trace s' = wd_trace s ++ es /\ follows (all_of ph cs ++ s2) never es r /\ batches es = [].
Proof.
  intros H2 H.
  destruct (@andthen_follows (all_of ph cs) s2 never (run_phase act ph None cs s) f s' r
              (wd_trace s)) as (es & T & F & B); auto.
  - destruct (run_phase act ph None cs s) as [s1 r1] eqn:R.
    destruct (run_phase_follows _ _ _ _ R) as (es & T & F & B & _). eauto.
  - exists es. split; [auto|split; auto]. eapply follows_cause; [|exact F].
    intros e (? & ? & _ & []).
Qed.
Lemma phase_follow ph cs (s s' : world) r :
  run_phase act ph None cs s = (s', r) ->
  exists es, wd_trace s' = wd_trace s ++ es /\ follows (all_of ph cs) never es r /\ batches es = [].
Proof. intros R. destruct (run_phase_follows _ _ _ _ R) as (es & T & F & B & _). eauto. Qed.

Lemma opening_follows cs (s s' : world) r :
  andthen (run_phase act PRestore None cs s) (run_phase act PBeginTraining None cs) = (s', r) ->
  exists es, wd_trace s' = wd_trace s ++ es /\ follows (opening cs) never es r /\ batches es = [].
Proof. apply phases_follow. intros *. apply phase_follow. Qed.

(** ** One step *)
Definition stop_cause (it : item O) (es : list entry) (e : exn) : Prop :=
  calls es = [] /\ (item_raises it e \/ miscounts e).
Lemma one_step_follows size cs k it (s s' : world) r :
  one_step act size cs k it s = (s', r) ->
  exists es, wd_trace s' = wd_trace s ++ es /\ follows (step_calls cs k) (stop_cause it) es r
    /\ (es = [] \/ exists b, it_batch it = Ok b /\ batches es = [(k, b)]
                   /\ exists es', es = TBatch k b :: es')
    /\ (r = Ok tt -> es <> []).
Proof.
  unfold one_step. destruct (it_batch it) as [b|e] eqn:B.
  2: { intros H. injection H as <- <-. exists []. rewrite app_nil_r. repeat split; auto; try discriminate.
       - exists (step_calls cs k). auto.
       - right. split; [constructor|]. split; auto. left; left; auto. }
  destruct (merge_batch size k b (wd_state s)) as [st|e] eqn:M.
  2: { intros H. injection H as <- <-. exists []. rewrite app_nil_r. repeat split; auto; try discriminate.
       - exists (step_calls cs k). auto.
       - right. split; [constructor|]. split; auto. right. unfold miscounts.
         unfold merge_batch in M. revert M.
         destruct (dget _ "bp_samples") as [v|]; [|intros M; injection M as <-; auto].
         destruct (dget _ size) as [v'|]; [|intros M; injection M as <-; auto].
         destruct v, v'; intros M; try discriminate; injection M as <-; auto. }
  destruct (it_stop it) as [[|]|e] eqn:T.
  - intros H. injection H as <- <-. exists [TBatch k b]. simpl. repeat split; auto; try discriminate.
    + exists (step_calls cs k). auto.
    + right. split; [repeat constructor|]. split; auto. left; right; right; auto.
    + right. exists b. repeat split; auto. eauto.
  - intros H.
    set (s1 := mkWorld st (wd_world s) (wd_trace s ++ [TBatch k b])) in *.
    assert (K : exists es, wd_trace s' = wd_trace s1 ++ es
              /\ follows (step_calls cs k) never es r /\ batches es = []).
    { revert H. unfold step_calls. rewrite begin_cbs_eq, end_cbs_eq.
      apply phases_follow. clear. intros s s' r. apply phases_follow. clear. intros s s' r.
      apply phases_follow. clear. intros s s' r. apply phases_follow. clear. intros s s' r.
      apply phase_follow. }
    destruct K as (es & Tr & F & Bs). exists (TBatch k b :: es). subst s1. simpl in Tr.
    rewrite Tr, <- app_assoc. repeat split; auto; try discriminate.
    + destruct r as [u|e]; simpl in *.
      * destruct F as [Q C]. split; auto. constructor; auto.
      * destruct F as [R D]. split; auto.
        destruct D as [(es0 & x & E & Q & Rx)|[_ []]].
        left. exists (TBatch k b :: es0), x. subst es. repeat split; auto. constructor; auto.
    + right. exists b. simpl. rewrite Bs. repeat split; auto. eauto.
  - intros H. injection H as <- <-. exists [TBatch k b]. simpl. repeat split; auto; try discriminate.
    + exists (step_calls cs k). auto.
    + right. split; [repeat constructor|]. split; auto. left; right; left; auto.
    + right. exists b. repeat split; auto. eauto.
Qed.

(** ** The loop *)
Definition loop_cause l k0 (items : list (item O)) (es : list entry) (e : exn) : Prop :=
  exists n it, nth_error items n = Some it /\ (item_raises it e \/ miscounts e) /\ calls es = steps_calls l k0 n.
Lemma loop_follows size cs k items (s s' : world) r :
  loop act size cs k items s = (s', r) ->
  exists es, wd_trace s' = wd_trace s ++ es
    /\ follows (steps_calls cs k (List.length items)) (loop_cause cs k items) es r.
Proof.
  revert k s. induction items as [|it items IH]; simpl; intros k s H.
  - injection H as <- <-. exists []. rewrite app_nil_r. repeat split; constructor.
  - destruct (one_step act size cs k it s) as [s1 [u|e]] eqn:S1; simpl in H;
      destruct (one_step_follows _ _ _ _ _ S1) as (es1 & T1 & F1 & _).
    + apply IH in H. destruct H as (es2 & T2 & F2). destruct u.
      exists (es1 ++ es2). rewrite T2, T1, <- app_assoc. split; auto.
      rewrite steps_calls_S.
      apply (@follows_cause _ (fun es e => exists es', es = es1 ++ es'
                /\ loop_cause cs (k + 1) items es' e));
        [|apply (@follows_app _ _ (stop_cause it)); auto].
      intros e (es' & E & n & it' & N & I & C). apply app_inv_head in E. subst es'.
      exists (S n), it'. repeat split; auto. rewrite calls_app, steps_calls_S, C.
      destruct F1 as [_ ->]. auto.
    + injection H as <- <-. exists es1. split; auto. rewrite steps_calls_S.
      eapply (@follows_weaken _ _ (stop_cause it)); [eauto| |exact F1].
      intros e' [C I]. exists 0%nat, it. repeat split; auto.
Qed.

(** ** The whole run *)
Lemma train_cases size cbs d st0 w s out :
  train act size cbs d st0 w = (s, out) ->
  let l := sort_cbs cbs in
  let s0 := mkWorld (dset (dset st0 "bp_samples" (VNum 0)) "bp_step" (VNum 1)) w [] in
  exists s1 r1,
    andthen (run_phase act PRestore None l s0) (run_phase act PBeginTraining None l) = (s1, r1)
    /\ match r1 with
       | Err e => s = s1 /\ out = match e with Shutdown => Returned | _ => Raised OtherError end
       | Ok _ =>
           match dget (wd_state s1) "bp_step" with
           | None => finish act l (s1, Err KeyError) true = (s, out)
           | Some (VObj _) => finish act l (s1, Err TypeError) true = (s, out)
           | Some (VNum k) => finish act l (loop act size l k (da_items d) s1) (da_ends d) = (s, out)
           end
       end.
Proof.
  intros H l s0. unfold train in H. fold l s0 in H.
  destruct (andthen _ _) as [s1 [u|e]] eqn:A; exists s1; eexists; split; try reflexivity.
  - destruct (dget (wd_state s1) "bp_step") as [[k|o]|] eqn:G; auto.
  - destruct e; injection H as <- <-; auto.
Qed.

Lemma finish_cases l (p : world * res unit) ends s out :
  finish act l p ends = (s, out) ->
  match snd p with
  | Ok _ => s = fst p /\ out = (if ends then Returned else Running)
  | Err e =>
      exists r2, run_phase act PEndTraining (Some e) l (fst p) = (s, r2)
      /\ out = match r2 with
               | Err e' => Raised e'
               | Ok _ => match e with Shutdown => Returned | _ => Raised e end
               end
  end.
Proof.
  unfold finish. destruct p as [s1 [u|e]]; simpl.
  - intros H. injection H as <- <-. auto.
  - destruct (run_phase act PEndTraining (Some e) l s1) as [s2 [u|e']] eqn:R; intros H;
      injection H as <- <-; eauto.
Qed.
Lemma prefix_firstn {A} (a rest sched : list A) : a ++ rest = sched -> a = firstn (List.length a) sched.
Proof. intros <-. rewrite firstn_app, Nat.sub_diag, firstn_O, firstn_all, app_nil_r. auto. Qed.

(** Where the steps start. *)
Definition first_step (s1 : world) : option Z :=
  match dget (wd_state s1) "bp_step" with Some (VNum k) => Some k | _ => None end.

(** Everything about the order of the calls. *)
Lemma train_order size cbs d st0 w s out :
  train act size cbs d st0 w = (s, out) ->
  let l := sort_cbs cbs in
  (* stopped before training began *)
  (exists e, (exists n, calls (wd_trace s) = firstn n (opening l))
        /\ (exists tr0 x, wd_trace s = tr0 ++ [x] /\ quiet tr0 /\ raises x = Some e)
        /\ out = match e with Shutdown => Returned | _ => Raised OtherError end)
  \/
  exists s1 es1, wd_trace s1 = es1 /\ calls es1 = opening l /\ quiet es1 /\ batches es1 = []
   /\ andthen (run_phase act PRestore None l
         (mkWorld (dset (dset st0 "bp_samples" (VNum 0)) "bp_step" (VNum 1)) w []))
         (run_phase act PBeginTraining None l) = (s1, Ok tt)
   /\ ((* the first step number is not a number *)
       (exists e, (e = KeyError \/ e = TypeError) /\ finish act l (s1, Err e) true = (s, out)
             /\ first_step s1 = None)
      \/ exists k s2 r2 es2, first_step s1 = Some k
         /\ loop act size l k (da_items d) s1 = (s2, r2) /\ wd_trace s2 = es1 ++ es2
         /\ follows (steps_calls l k (List.length (da_items d))) (loop_cause l k (da_items d)) es2 r2
         /\ finish act l (s2, r2) (da_ends d) = (s, out)).
Proof.
  intros H l. destruct (train_cases _ _ _ _ _ H) as (s1 & r1 & A & C). fold l in A, C.
  destruct (opening_follows _ _ A) as (es & T & F & B). simpl in T.
  destruct r1 as [u|e].
  - right. destruct F as [Q Cl]. destruct u. exists s1, es. repeat (split; [auto|]).
    unfold first_step. destruct (dget (wd_state s1) "bp_step") as [[k|o]|] eqn:G.
    + right. destruct (loop act size l k (da_items d) s1) as [s2 r2] eqn:L.
      destruct (loop_follows _ _ _ _ _ L) as (es2 & T2 & F2).
      exists k, s2, r2, es2. repeat split; auto. rewrite T2, T. auto.
    + left. exists TypeError. auto.
    + left. exists KeyError. auto.
  - left. destruct C as [-> ->]. exists e. destruct F as [[rest R] D]. split; [|split].
    + exists (List.length (calls (wd_trace s1))). rewrite T. eapply prefix_firstn; eauto.
    + destruct D as [D|[_ []]]. rewrite T. auto.
    + auto.
Qed.
End P.
