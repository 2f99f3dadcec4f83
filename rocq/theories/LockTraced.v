(** * LockTraced (C58) *)
From Verif Require Import Py PyLemmas LockModel LockSpec LockProofs.
Set Implicit Arguments.
Unset Strict Implicit.
Open Scope list_scope.
Open Scope Z_scope.

Definition total (f : place -> Z) (l : list (nat * place)) : Z := zsum (map (fun t => f (snd t)) l).
Lemma total_set f i l x y : nth_error l i = Some y -> total f (set_nth i x l) = total f l - f (snd y) + f (snd x).
Proof.
  unfold total. revert i. induction l as [|z r IH]; intros [|i] H; simpl in *; try discriminate.
  - injection H as ->. lia.
  - rewrite IH by auto. lia.
Qed.
Lemma total_zero f l : (forall t, In t l -> f (snd t) = 0) -> total f l = 0.
Proof.
  unfold total. induction l as [|x r IH]; intros H; simpl; auto. rewrite (H x), IH; simpl; auto.
  intros t I. apply H. right. auto.
Qed.

(** ** Waiting *)
Definition owed (p : place) : Z :=
  match p with
  | Waiting t0 | Acquired t0 => - t0
  | Timed t0 now | BlockLoaded t0 now _ => now - t0
  | _ => 0
  end.
Definition holds (p : place) : bool :=
  match p with Acquired _ | Timed _ _ | BlockLoaded _ _ _ | BlockStored _ | Inside _ => true | _ => false end.

Definition BInv (d : Z) (s : traced) : Prop :=
  (forall i t, nth_error (tl_threads s) i = Some t -> holds (snd t) = true -> tl_lock s = Some i)
  /\ (forall i n t0 now acc, nth_error (tl_threads s) i = Some (n, BlockLoaded t0 now acc) -> acc = tl_block s)
  /\ tl_block s + total owed (tl_threads s) = d.


Lemma BInv_step d e s : BInv d s ->
  BInv (d + (clock_at Enters [e] s - clock_at Asks [e] s)) (traced_event e s).
Proof.
  intros (H1 & H2 & H3). cbn [clock_at]. destruct e as [x|i].
  { cbn [traced_event]. split; [exact H1|]. split; [exact H2|]. simpl. lia. }
  cbn [traced_event]. unfold traced_step, moment_of.
  destruct (nth_error (tl_threads s) i) as [[n p]|] eqn:Ni.
  2:{ split; [exact H1|]. split; [exact H2|]. lia. }
  pose proof (H1 i _ Ni) as Hi. simpl in Hi.
  assert (Idle : BInv (d + (0 + 0 - (0 + 0))) s) by (split; [exact H1|]; split; [exact H2|]; lia).
  destruct p; try (specialize (Hi eq_refl)).
  1: (destruct n as [|n]; [exact Idle|]).
  2: (destruct (tl_lock s) eqn:Lk; [exact Idle|]).
  all: split; [|split]; cbn [tl_threads tl_lock tl_block];
    [ intros j t Hj Ht; destruct (set_nth_cases Ni Hj) as [[-> ->]|[Nj Hj']];
      [simpl in Ht; solve [discriminate|auto]|pose proof (H1 j t Hj' Ht); congruence]
    | intros j m t0' now' acc' Hj; destruct (set_nth_cases Ni Hj) as [[-> E]|[Nj Hj']];
      [solve [discriminate|injection E; intros; subst; auto]
      |try exact (H2 _ _ _ _ _ Hj'); pose proof (H1 j _ Hj' eq_refl); congruence]
    | rewrite (total_set _ _ Ni); cbn [snd owed]; try rewrite (H2 i _ _ _ _ Ni); lia ].
Qed.

Lemma clock_at_cons m e r s : clock_at m (e :: r) s = clock_at m [e] s + clock_at m r (traced_event e s).
Proof. cbn [clock_at]. lia. Qed.
Lemma BInv_run es d s : BInv d s -> BInv (d + (clock_at Enters es s - clock_at Asks es s)) (traced_run es s).
Proof.
  revert d s. induction es as [|e r IH]; intros d s I.
  - simpl. rewrite Z.add_0_r. exact I.
  - cbn [traced_run]. apply (BInv_step e) in I. apply IH in I.
    rewrite (clock_at_cons Enters e r s), (clock_at_cons Asks e r s).
    replace (d + (clock_at Enters [e] s + clock_at Enters r (traced_event e s) - (clock_at Asks [e] s + clock_at Asks r (traced_event e s))))
      with (d + (clock_at Enters [e] s - clock_at Asks [e] s) + (clock_at Enters r (traced_event e s) - clock_at Asks r (traced_event e s))) by lia.
    exact I.
Qed.
Lemma start_outside counts i t : nth_error (tl_threads (traced_start counts)) i = Some t -> snd t = Outside.
Proof. simpl. rewrite nth_error_map. destruct (nth_error counts i); [|discriminate]. intros [= <-]. auto. Qed.
Lemma start_total counts f : f Outside = 0 -> total f (tl_threads (traced_start counts)) = 0.
Proof. intros H. apply total_zero. intros t I. apply In_nth_error in I. destruct I as [i I]. apply start_outside in I. rewrite I. auto. Qed.
Lemma BInv_start counts : BInv 0 (traced_start counts).
Proof.
  split; [|split].
  - intros i t H. apply start_outside in H. rewrite H. discriminate.
  - intros i n t0 now acc H. apply start_outside in H. discriminate.
  - rewrite start_total; auto.
Qed.

Lemma block_time counts es :
  let s := traced_run es (traced_start counts) in
  all_outside s ->
  tl_block s = clock_at Enters es (traced_start counts) - clock_at Asks es (traced_start counts).
Proof.
  cbv zeta. intros A. destruct (@BInv_run es 0 _ (BInv_start counts)) as (_ & _ & H).
  rewrite total_zero in H; [lia|]. intros t I. unfold all_outside in A. rewrite Forall_forall in A. rewrite (A t I). auto.
Qed.

(** ** The time inside *)
Definition busy (p : place) : bool := holds p || leaving p.
Definition since (p : place) : Z :=
  match p with
  | Timed _ now | BlockLoaded _ now _ | BlockStored now | Inside now | Released now | ExecLoaded now _ => - now
  | ExecTimed now _ t1 | ExecStart now _ t1 _ => t1 - now
  | _ => 0
  end.
Definition EInv (d : Z) (s : traced) : Prop :=
  (forall i t, nth_error (tl_threads s) i = Some t -> holds (snd t) = true -> tl_lock s = Some i)
  /\ (forall i j t u, nth_error (tl_threads s) i = Some t -> nth_error (tl_threads s) j = Some u ->
        busy (snd t) = true -> busy (snd u) = true -> i = j)
  /\ (forall i n p, nth_error (tl_threads s) i = Some (n, p) ->
        match p with
        | Inside now | Released now => tl_start s = now
        | ExecLoaded now acc | ExecTimed now acc _ => tl_start s = now /\ acc = tl_exec s
        | ExecStart now acc _ s0 => s0 = now /\ acc = tl_exec s
        | _ => True
        end)
  /\ tl_exec s + total since (tl_threads s) = d.

Lemma EInv_step d e s : EInv d s -> calm (traced_event e s) ->
  EInv (d + (clock_at Leaves [e] s - clock_at Enters [e] s)) (traced_event e s).
Proof.
  intros (H1 & H2 & H3 & H4) Calm. cbn [clock_at]. destruct e as [x|i].
  { cbn [traced_event]. split; [exact H1|]. split; [exact H2|]. split; [exact H3|]. simpl. lia. }
  cbn [traced_event] in *. unfold traced_step, moment_of in *.
  destruct (nth_error (tl_threads s) i) as [[n p]|] eqn:Ni.
  2:{ split; [exact H1|]. split; [exact H2|]. split; [exact H3|]. lia. }
  pose proof (H1 i _ Ni) as Hi. simpl in Hi. pose proof (H3 i _ _ Ni) as Pi. simpl in Pi.
  assert (Idle : EInv (d + (0 + 0 - (0 + 0))) s) by (split; [exact H1|]; split; [exact H2|]; split; [exact H3|]; lia).
  assert (Oth : forall j u, nth_error (tl_threads s) j = Some u -> busy p = true -> j <> i -> busy (snd u) = false).
  { intros j u Hj Bp N. destruct (busy (snd u)) eqn:B; auto. exfalso. apply N. symmetry. eapply (H2 i j); eauto. }
  destruct p; try (specialize (Hi eq_refl)).
  1: (destruct n as [|n]; [exact Idle|]).
  2: (destruct (tl_lock s) eqn:Lk; [exact Idle|]).
  2:{ (* the lock is taken *)
    assert (Fr : forall j u, nth_error (tl_threads s) j = Some u -> busy (snd u) = false).
    { intros j u Hj. unfold busy. destruct (holds (snd u)) eqn:Ho; [specialize (H1 j u Hj Ho); discriminate|]. simpl.
      destruct (Nat.eq_dec j i) as [->|N]; [rewrite Ni in Hj; injection Hj as <-; auto|].
      unfold calm in Calm. cbn [tl_lock tl_threads] in Calm. assert (X : Some i <> None) by discriminate.
      specialize (Calm X). rewrite Forall_forall in Calm. apply Calm. apply (@nth_error_In _ _ j).
      rewrite set_nth_neq by auto. auto. }
    split; [|split; [|split]]; cbn [tl_threads tl_lock tl_exec tl_start].
    - intros j t Hj Ht. destruct (set_nth_cases Ni Hj) as [[-> ->]|[Nj Hj']]; auto.
      specialize (Fr j t Hj'). unfold busy in Fr. rewrite Ht in Fr. discriminate.
    - intros j k t u Hj Hk Bt Bu. destruct (set_nth_cases Ni Hj) as [[-> ->]|[Nj Hj']];
        [|rewrite (Fr _ _ Hj') in Bt; discriminate].
      destruct (set_nth_cases Ni Hk) as [[-> ->]|[Nk Hk']]; [auto|rewrite (Fr _ _ Hk') in Bu; discriminate].
    - intros j m q Hj. destruct (set_nth_cases Ni Hj) as [[-> E]|[Nj Hj']]; [injection E as -> ->; auto|]. exact (H3 j m q Hj').
    - rewrite (total_set _ _ Ni). cbn [snd since]. lia. }
  1:{ (* the thread asks *)
    split; [|split; [|split]]; cbn [tl_threads tl_lock tl_exec tl_start].
    - intros j t Hj Ht. destruct (set_nth_cases Ni Hj) as [[-> ->]|[Nj Hj']]; [discriminate|eauto].
    - intros j k t u Hj Hk Bt Bu. destruct (set_nth_cases Ni Hj) as [[-> ->]|[Nj Hj']]; [discriminate|].
      destruct (set_nth_cases Ni Hk) as [[-> ->]|[Nk Hk']]; [discriminate|eauto].
    - intros j m q Hj. destruct (set_nth_cases Ni Hj) as [[-> E]|[Nj Hj']]; [injection E as -> ->; auto|]. exact (H3 j m q Hj').
    - rewrite (total_set _ _ Ni). cbn [snd since]. lia. }
  all: assert (Fr : forall j u, nth_error (tl_threads s) j = Some u -> j <> i -> busy (snd u) = false)
      by (intros j u Hj N; apply (Oth j u Hj eq_refl N)).
  all: split; [|split; [|split]]; cbn [tl_threads tl_lock tl_exec tl_start];
    [ intros j t Hj Ht; destruct (set_nth_cases Ni Hj) as [[-> ->]|[Nj Hj']];
      [simpl in Ht; solve [discriminate|auto]
      |exfalso; specialize (Fr j t Hj' Nj); unfold busy in Fr; rewrite Ht in Fr; discriminate]
    | intros j k t u Hj Hk Bt Bu; destruct (set_nth_cases Ni Hj) as [[-> ->]|[Nj Hj']];
      [|rewrite (Fr _ _ Hj' Nj) in Bt; discriminate];
      destruct (set_nth_cases Ni Hk) as [[-> ->]|[Nk Hk']]; [auto|rewrite (Fr _ _ Hk' Nk) in Bu; discriminate]
    | intros j m q Hj; destruct (set_nth_cases Ni Hj) as [[-> E]|[Nj Hj']];
      [injection E as -> ->; simpl; solve [auto | intuition congruence]
      |specialize (Fr _ _ Hj' Nj); simpl in Fr; destruct q; auto; discriminate]
    | rewrite (total_set _ _ Ni); cbn [snd since]; lia ].
Qed.
Lemma EInv_run es d s : EInv d s -> always calm es s ->
  EInv (d + (clock_at Leaves es s - clock_at Enters es s)) (traced_run es s).
Proof.
  revert d s. induction es as [|e r IH]; intros d s I A.
  - simpl. rewrite Z.add_0_r. exact I.
  - cbn [traced_run]. cbn [always] in A. destruct A as [_ A].
    assert (C : calm (traced_event e s)) by (destruct r; apply A).
    apply (EInv_step (e := e)) in I; auto. apply IH in I; auto.
    rewrite (clock_at_cons Enters e r s), (clock_at_cons Leaves e r s).
    replace (d + (clock_at Leaves [e] s + clock_at Leaves r (traced_event e s) - (clock_at Enters [e] s + clock_at Enters r (traced_event e s))))
      with (d + (clock_at Leaves [e] s - clock_at Enters [e] s) + (clock_at Leaves r (traced_event e s) - clock_at Enters r (traced_event e s))) by lia.
    exact I.
Qed.
Lemma EInv_start counts : EInv 0 (traced_start counts).
Proof.
  split; [|split; [|split]].
  - intros i t H. apply start_outside in H. rewrite H. discriminate.
  - intros i j t u H. apply start_outside in H. rewrite H. discriminate.
  - intros i n p H. apply start_outside in H. simpl in H. subst. auto.
  - rewrite start_total; auto.
Qed.
Lemma exec_time counts es :
  let s0 := traced_start counts in
  let s := traced_run es s0 in
  always calm es s0 -> all_outside s ->
  tl_exec s = clock_at Leaves es s0 - clock_at Enters es s0.
Proof.
  cbv zeta. intros C A. destruct (@EInv_run es 0 _ (EInv_start counts) C) as (_ & _ & _ & H).
  rewrite total_zero in H; [lia|]. intros t I. unfold all_outside in A. rewrite Forall_forall in A. rewrite (A t I). auto.
Qed.

(** One thread is always calm. *)
Lemma one_thread n es : always calm es (traced_start [n]).
Proof.
  assert (K : forall es s, List.length (tl_threads s) = 1%nat ->
    (forall t, nth_error (tl_threads s) 0 = Some t -> holds (snd t) = true \/ tl_lock s = None) -> always calm es s).
  { clear. induction es as [|e r IH]; intros s L H; split; auto.
    1,2: (intros Lk; destruct (tl_threads s) as [|t [|]]; try discriminate; constructor; auto;
          destruct (H t eq_refl) as [Ht|]; [destruct (snd t); auto; discriminate|congruence]).
    apply IH.
    - destruct e as [x|i]; auto. cbn [traced_event]. unfold traced_step.
      destruct (nth_error (tl_threads s) i) as [[n p]|]; auto. destruct p; try (destruct n); try (destruct (tl_lock s));
        cbn [tl_threads]; rewrite ?set_nth_length; auto.
    - destruct e as [x|i]; [exact H|]. cbn [traced_event]. unfold traced_step.
      destruct (nth_error (tl_threads s) i) as [[n p]|] eqn:Ni; [|exact H].
      assert (i = 0%nat) by (assert (i < List.length (tl_threads s))%nat by (apply nth_error_Some; congruence); lia). subst i.
      pose proof (H _ Ni) as Hi. simpl in Hi.
      destruct p; try (destruct n as [|n]; [exact H|]); try (destruct (tl_lock s) as [k|] eqn:Lk; [intros t Ht; destruct (H t Ht); [auto|discriminate]|]);
        cbn [tl_threads tl_lock]; intros t Ht; rewrite (set_nth_eq _ Ni) in Ht; injection Ht as <-; simpl;
        auto; destruct Hi as [Hi|Hi]; auto; discriminate. }
  apply K; auto.
Qed.

Lemma exec_time_one n es :
  let s0 := traced_start [n] in let s := traced_run es s0 in
  all_outside s -> tl_exec s = clock_at Leaves es s0 - clock_at Enters es s0.
Proof. cbv zeta. apply exec_time. apply one_thread. Qed.

(** Thread 0 leaves; before it reads the start of its scope, thread 1 enters and
    sets it. *)
Definition race : list event :=
  map Step [0;0;0;0;0;0]%nat ++ [Advance 10] ++ map Step [0;0]%nat ++ [Step 0%nat]
  ++ [Advance 5] ++ map Step [1;1;1;1;1;1]%nat ++ map Step [0;0]%nat.
Definition race_over : list event := race ++ map Step [1;1;1;1;1]%nat.
Lemma exec_time_wrong : exists es,
  forward es /\
  let s0 := traced_start [1%nat; 1%nat] in let s := traced_run es s0 in
  all_outside s /\ tl_exec s <> clock_at Leaves es s0 - clock_at Enters es s0.
Proof.
  exists race_over. split; [repeat constructor; lia|]. split; [repeat constructor|]. vm_compute. discriminate.
Qed.
Lemma exec_time_negative : exists es,
  forward es /\
  let s := traced_run es (traced_start [1%nat; 1%nat]) in
  tl_exec s < 0 /\ exists n now, nth_error (tl_threads s) 1 = Some (n, Inside now).
Proof.
  exists race. split; [repeat constructor; lia|]. split; [vm_compute; reflexivity|]. exists 0%nat, 15. reflexivity.
Qed.

(** For examples. *)
Definition calmb (s : traced) : bool :=
  match tl_lock s with None => true | Some _ => forallb (fun t => negb (leaving (snd t))) (tl_threads s) end.
Fixpoint alwaysb (es : list event) (s : traced) : bool :=
  calmb s && match es with [] => true | e :: r => alwaysb r (traced_event e s) end.
Lemma alwaysb_ok es s : alwaysb es s = true -> always calm es s.
Proof.
  assert (C : forall s, calmb s = true -> calm s).
  { intros u H L. unfold calmb in H. destruct (tl_lock u); [|congruence]. apply Forall_forall. intros t I.
    rewrite forallb_forall in H. specialize (H t I). destruct (leaving (snd t)); auto. }
  revert s. induction es as [|e r IH]; intros s H; cbn [alwaysb] in H; apply andb_prop in H; destruct H as [H1 H2]; split; auto.
Qed.
