(** * ShareProofs *)
From Verif Require Import Py PyLemmas MemModel MemSpec MemProofs MemRun MemSample ShareWin ConcModel ConcSpec ConcProofs ShareSpec.
Open Scope Z_scope.
Set Implicit Arguments.

Section Share.
Context {S : Type} {HS : Scalar S}.
Implicit Types (c : config S) (order : list (nat * op S)).

(** ** The order of a schedule only grows *)
Definition linv_at (t0 : table S) (progs : nat -> list (op S)) order c : Prop :=
    (forall i, th_log (cf_threads c i) = replies_of i (snd (replay t0 order))) /\
    (forall i, progs i = map fst (th_log (cf_threads c i)) ++
        (match cf_holder c with
         | Some (j, o, _, _) => if Nat.eqb i j then [o] else []
         | None => [] end) ++ th_todo (cf_threads c i)) /\
    match cf_holder c with
    | None => cf_table c = fst (replay t0 order)
    | Some (j, o, ms, st) =>
        exec ms (cf_table c, st) =
        (fst (do_op (fst (replay t0 order)) o), MRet (snd (do_op (fst (replay t0 order)) o)))
    end.

Lemma linv_at_step mic t0 progs order c c' : micro_ok mic -> linv_at t0 progs order c -> cstep mic c c' ->
  linv_at t0 progs (order ++ match cf_holder c with
                             | Some (i, o, [], MRet _) => [(i, o)]
                             | _ => [] end) c'
  /\ match cf_holder c with
     | Some (i, o, [], MRet _) => cf_holder c' = None
     | Some (i, o, _, _) => exists ms st, cf_holder c' = Some (i, o, ms, st)
     | None => True end.
Proof.
  intros Hm (A1 & A2 & A3) St. destruct St as [t th i o r l E|t th i o m ms st t' st' E|t th i o x r l E];
    cbn [cf_table cf_holder cf_threads] in *; rewrite ?app_nil_r.
  - split; auto. unfold linv_at. cbn [cf_table cf_holder cf_threads]. split; [|split].
    + intros j. unfold upd. destruct (Nat.eqb_spec j i) as [->|Ne]; auto. rewrite <- A1, E. auto.
    + intros j. pose proof (A2 j) as A2j. clear A2. rename A2j into A2. unfold upd. destruct (Nat.eqb_spec j i) as [->|Ne]; auto.
      rewrite E in A2. auto.
    + subst t. rewrite (Hm o). auto.
  - split; [|eauto]. unfold linv_at. cbn [cf_table cf_holder cf_threads]. split; auto. split; auto.
    rewrite <- A3. unfold exec. cbn [fold_left]. rewrite E. auto.
  - split; auto. unfold linv_at. cbn [cf_table cf_holder cf_threads]. rewrite replay_snoc. cbn [fst snd].
    unfold exec in A3. cbn [fold_left] in A3. injection A3 as Et Ex. split; [|split].
    + intros j. rewrite replies_snoc, <- A1. unfold upd. destruct (Nat.eqb_spec j i) as [->|Ne].
      * rewrite E, <- Ex. auto.
      * rewrite app_nil_r. auto.
    + intros j. pose proof (A2 j) as A2j. clear A2. rename A2j into A2. unfold upd. destruct (Nat.eqb_spec j i) as [Ej|Ne]; auto.
      rewrite Ej in *. rewrite E in A2. cbn [th_log th_todo app] in *. rewrite map_app, <- app_assoc. auto.
    + auto.
Qed.

Lemma linv_at_start t0 progs : linv_at t0 progs [] (start t0 progs).
Proof. unfold linv_at. cbn. auto. Qed.

Lemma linv_at_steps mic t0 progs order c c' : micro_ok mic -> linv_at t0 progs order c -> csteps mic c c' ->
  exists later, linv_at t0 progs (order ++ later) c'.
Proof.
  intros Hm I R. induction R as [c|c1 c2 c3 R IH St].
  - exists []. rewrite app_nil_r. exact I.
  - destruct (IH I) as [later I2]. destruct (linv_at_step Hm I2 St) as [I3 _].
    rewrite <- app_assoc in I3. eexists. exact I3.
Qed.

Lemma linv_at_held mic t0 progs order c c' i o ms st : micro_ok mic -> linv_at t0 progs order c ->
  cf_holder c = Some (i, o, ms, st) -> csteps mic c c' ->
  (linv_at t0 progs order c' /\ exists ms' st', cf_holder c' = Some (i, o, ms', st'))
  \/ exists later, linv_at t0 progs (order ++ (i, o) :: later) c'.
Proof.
  intros Hm I Hh R. induction R as [c|c1 c2 c3 R IH St].
  - left. eauto.
  - destruct (IH I Hh) as [[I2 (ms' & st' & H2)]|[later I2]].
    + destruct (linv_at_step Hm I2 St) as [I3 N]. rewrite H2 in I3, N. destruct ms' as [|m ms'].
      * destruct st' as [|r]; [left|right; exists []; exact I3]. rewrite app_nil_r in I3. auto.
      * rewrite app_nil_r in I3. left. auto.
    + right. destruct (linv_at_step Hm I2 St) as [I3 _]. rewrite <- app_assoc in I3. eexists. exact I3.
Qed.

Lemma real_time mic t0 progs c c' : micro_ok mic -> csteps mic (start t0 progs) c -> csteps mic c c' ->
  exists order later,
    (forall i, th_log (cf_threads c i) = replies_of i (snd (replay t0 order))) /\
    (forall i, th_log (cf_threads c' i) = replies_of i (snd (replay t0 (order ++ later)))) /\
    (cf_holder c' = None -> cf_table c' = fst (replay t0 (order ++ later))).
Proof.
  intros Hm R1 R2. destruct (linv_at_steps Hm (linv_at_start t0 progs) R1) as [order I1]. cbn [app] in I1.
  destruct (linv_at_steps Hm I1 R2) as [later I2]. exists order, later.
  split; [apply I1|]. split; [apply I2|]. intros N. destruct I2 as (_ & _ & A). rewrite N in A. exact A.
Qed.

(** ** Replaying *)
Lemma do_op_step (t : table S) o : fst (do_op t o) = step t o.
Proof.
  destruct o as [id s dr|k n dr|n| | |]; cbn [do_op step]; auto.
  - destruct (add_sequence t id s dr); auto.
  - destruct (t_sample t k n dr); auto.
  - destruct (t_resize t n); auto.
Qed.
Lemma replay_run order : forall t : table S, fst (replay t order) = run t (map snd order).
Proof.
  induction order as [|[i o] r IH]; intros t; cbn [replay map snd]; [reflexivity|].
  change (run t (o :: map snd r)) with (run (step t o) (map snd r)).
  rewrite <- do_op_step. destruct (do_op t o) as [t1 x]. cbn [fst]. rewrite <- IH.
  destruct (replay t1 r) as [t2 l]. reflexivity.
Qed.
Lemma additions_adds (ops : list (op S)) : additions ops = adds ops.
Proof. induction ops as [|o r IH]; [reflexivity|]. cbn [additions flat_map]. fold (additions r). rewrite IH. destruct o; reflexivity. Qed.

Lemma replay_ops order : forall t : table S, map (fun x => (fst x, fst (snd x))) (snd (replay t order)) = order.
Proof.
  induction order as [|[i o] r IH]; intros t; cbn [replay]; [reflexivity|].
  destruct (do_op t o) as [t1 x]. specialize (IH t1). destruct (replay t1 r) as [t2 l]. cbn [snd map fst] in *. rewrite IH. reflexivity.
Qed.

(** The calls thread [i] has in the order. *)
Definition mine (i : nat) {A} (l : list (nat * A)) : list A := map snd (filter (fun x => Nat.eqb (fst x) i) l).
Lemma mine_app i A (a b : list (nat * A)) : mine i (a ++ b) = mine i a ++ mine i b.
Proof. unfold mine. rewrite filter_app, map_app. reflexivity. Qed.
Lemma mine_replies i order (t : table S) : map fst (replies_of i (snd (replay t order))) = mine i order.
Proof.
  unfold replies_of, mine. rewrite <- (replay_ops order t) at 2. induction (snd (replay t order)) as [|[j [o x]] l IH]; [reflexivity|].
  cbn [map filter fst snd]. destruct (Nat.eqb j i); cbn [map fst snd]; rewrite IH; reflexivity.
Qed.
Lemma mine_In i A (l : list (nat * A)) x : In x (mine i l) <-> In (i, x) l.
Proof.
  unfold mine. rewrite in_map_iff. split.
  - intros ([j y] & E & I). apply filter_In in I as [I Ej]. cbn in *. apply Nat.eqb_eq in Ej. subst. exact I.
  - intros I. exists (i, x). split; [reflexivity|]. apply filter_In. split; [exact I|]. cbn. apply Nat.eqb_refl.
Qed.

Lemma adds_cons o (r : list (op S)) : adds (o :: r) = adds [o] ++ adds r.
Proof. apply (adds_app [o] r). Qed.
Lemma In_adds (ops : list (op S)) k s : In (k, s) (adds ops) <-> exists id dr, k = wrap_id id /\ In (OAdd id s dr) ops.
Proof.
  induction ops as [|o r IH].
  - cbn. split; [tauto|]. intros (id & dr & _ & []).
  - rewrite (adds_cons o r), in_app_iff, IH. split.
    + intros [I|(id & dr & E & I)]; [|exists id, dr; split; [exact E|right; exact I]].
      destruct o as [id s' dr| | | | |]; cbn in I; try tauto. destruct I as [E|[]]. injection E as <- <-.
      exists id, dr. split; [reflexivity|left; reflexivity].
    + intros (id & dr & E & [->|I]); [left; left; rewrite E; reflexivity|right; eauto].
Qed.

Lemma adds_mine i order k s : In (k, s) (adds (mine i order)) -> In (k, s) (adds (map snd order)).
Proof.
  rewrite !In_adds. intros (id & dr & E & I). exists id, dr. split; [exact E|]. apply mine_In in I.
  apply in_map_iff. exists (i, OAdd id s dr). auto.
Qed.
Lemma adds_some_mine order k s : In (k, s) (adds (map snd order)) -> exists i, In (k, s) (adds (mine i order)).
Proof.
  rewrite In_adds. intros (id & dr & E & I). apply in_map_iff in I as ([i o] & Eo & I). cbn in Eo. subst o.
  exists i. apply In_adds. exists id, dr. split; [exact E|]. apply mine_In. exact I.
Qed.

(** Identities of the order are distinct when those of the threads are. *)
Lemma merged_nodup order : (forall i, NoDup (map fst (adds (mine i order)))) ->
  (forall i j k, i <> j -> In k (map fst (adds (mine i order))) -> ~ In k (map fst (adds (mine j order)))) ->
  NoDup (map fst (adds (map snd order))).
Proof.
  induction order as [|[i o] r IH]; intros N D; [constructor|].
  assert (Hm : forall j, mine j ((i, o) :: r) = (if Nat.eqb i j then [o] else []) ++ mine j r).
  { intros j. unfold mine. cbn [filter fst]. destruct (Nat.eqb i j); reflexivity. }
  assert (N' : forall j, NoDup (map fst (adds (mine j r)))).
  { intros j. specialize (N j). rewrite Hm, adds_app, map_app in N. clear -N.
    induction (map fst (adds (if Nat.eqb i j then [o] else []))) as [|x l IHl]; [exact N|]. inversion N; auto. }
  assert (D' : forall a b k, a <> b -> In k (map fst (adds (mine a r))) -> ~ In k (map fst (adds (mine b r)))).
  { intros a b k Ne I1 I2. apply (D a b k Ne); rewrite Hm, adds_app, map_app, in_app_iff; auto. }
  specialize (IH N' D'). cbn [map snd]. rewrite (adds_cons o (map snd r)), map_app.
  destruct o as [id s dr| | | | |]; try exact IH. cbn [adds map fst app]. constructor; [|exact IH].
  intros I. apply in_map_iff in I as ([k s'] & E & I). cbn in E. subst k.
  destruct (adds_some_mine _ _ _ I) as [j Ij].
  assert (Ii : In (wrap_id id) (map fst (adds (mine j r)))) by (apply in_map_iff; exists (wrap_id id, s'); auto).
  destruct (Nat.eq_dec i j) as [<-|Ne].
  - specialize (N i). rewrite Hm, Nat.eqb_refl, adds_app, map_app in N. cbn [adds map fst app] in N. inversion N; auto.
  - apply (D i j (wrap_id id) Ne); rewrite Hm, adds_app, map_app, in_app_iff; [|right; exact Ii].
    left. rewrite Nat.eqb_refl. cbn. auto.
Qed.

(** ** The table holds what was successfully added *)
Definition ok_adds (l : list (nat * (op S * res (reply S)))) : buffer S :=
  flat_map (fun x => match snd x with (OAdd id s _, Ok _) => [(wrap_id id, s)] | _ => [] end) l.
Lemma ok_adds_app a b : ok_adds (a ++ b) = ok_adds a ++ ok_adds b.
Proof. apply flat_map_app. Qed.
Lemma ok_adds_sub (t : table S) order : sublist (ok_adds (snd (replay t order))) (adds (map snd order)).
Proof.
  revert t. induction order as [|[i o] r IH]; intros t; [constructor|]. cbn [replay map snd].
  rewrite (adds_cons o (map snd r)). specialize (IH (fst (do_op t o))).
  destruct (do_op t o) as [t1 x]. cbn [fst] in IH. destruct (replay t1 r) as [t2 l]. cbn [snd] in *.
  cbn [ok_adds flat_map snd]. fold (ok_adds l). apply sublist_app; [|exact IH].
  destruct o as [id s dr| | | | |]; [destruct x; cbn; repeat constructor|constructor..].
Qed.

Lemma replay_inv cols lk maxlen smp ej order : config_ok cols lk -> fresh_sampler smp -> fresh_ejector ej ->
  client_ok cols (map snd order) ->
  let t0 := t_create cols lk maxlen smp ej in
  exists B, Inv (fst (replay t0 order)) B /\ sublist B (ok_adds (snd (replay t0 order)))
    /\ t_cols (fst (replay t0 order)) = cols /\ t_lenkey (fst (replay t0 order)) = lk.
Proof.
  intros C Fs Fe Co t0. revert Co. induction order as [|[i o] r IH] using rev_ind; intros (C1 & C2 & C3).
  - exists []. cbn. split; [apply (Inv_create maxlen C Fs Fe)|]. split; [constructor|]. auto.
  - rewrite map_app in C1, C2, C3. cbn [map snd] in C1, C2, C3.
    rewrite adds_app in C2, C3. apply Forall_app in C1 as [C1 C1']. apply Forall_app in C2 as [C2 C2'].
    rewrite map_app in C3.
    assert (C3a : NoDup (map fst (adds (map snd r)))).
    { clear -C3. induction (map fst (adds (map snd r))) as [|x l IHl]; [constructor|]. inversion C3; subst.
      constructor; [|auto]. intros I. apply H1. apply in_or_app. auto. }
    destruct (IH (conj C1 (conj C2 C3a))) as (B & I & Sb & F1 & F2). rewrite replay_snoc. cbn [fst snd].
    rewrite ok_adds_app. set (t := fst (replay t0 r)) in *.
    assert (Ho : op_ok (t_cols t) B o).
    { destruct o as [id s dr| | | | |]; cbn; auto.
      - rewrite F1. split; [inversion C2'; auto|]. intros In1. cbn in C3.
        assert (In2 : In (wrap_id id) (map fst (adds (map snd r)))).
        { apply in_map_iff in In1 as (e & E & Ie). apply in_map_iff. exists e. split; [exact E|].
          apply (@sublist_In _ _ _ _ (ok_adds_sub t0 r)). apply (@sublist_In _ _ _ _ Sb). exact Ie. }
        apply NoDup_remove_2 in C3. apply C3. rewrite app_nil_r. exact In2.
      - rewrite Forall_forall in C1'. apply (C1' OClear); [left; reflexivity|reflexivity]. }
    destruct o as [id s dr|k n dr|n| | |].
    1: { cbn in Ho. destruct Ho as [So Nid].
         destruct (@add_sequence_inv S t B id s dr I Nid So) as
           [(t' & e & E & I' & _ & _ & G1 & G2 & _)|
            (t' & ids & E & I' & _ & _ & _ & _ & G1 & G2 & _)]; cbn [do_op]; rewrite E; cbn [fst snd rmap].
         - exists B. split; [exact I'|]. split; [|split; congruence]. cbn [ok_adds flat_map snd app]. rewrite app_nil_r. exact Sb.
         - exists (drop_all ids B ++ [(wrap_id id, s)]). split; [exact I'|]. split; [|split; congruence].
           cbn [ok_adds flat_map snd app]. apply sublist_app; [|apply sublist_refl].
           eapply sublist_trans; [apply sublist_filter|exact Sb]. }
    all: destruct (step_inv _ I Ho) as (B' & I' & Sb' & G1 & G2 & _); rewrite do_op_step;
      exists B'; split; [exact I'|]; split; [|split; congruence];
      cbn [adds] in Sb'; rewrite app_nil_r in Sb'; cbn [ok_adds flat_map snd app]; rewrite app_nil_r; exact (sublist_trans Sb' Sb).
Qed.

(** ** From the programs to the order *)
Definition prefix {A} (a b : list A) : Prop := exists r, b = a ++ r.
Lemma prefix_adds (a b : list (op S)) : prefix a b -> prefix (adds a) (adds b).
Proof. intros [r ->]. exists (adds r). apply adds_app. Qed.

Lemma cooperating_order cols progs order : cooperating cols progs -> (forall i, prefix (mine i order) (progs i)) ->
  client_ok cols (map snd order).
Proof.
  intros (P1 & P2 & P3 & P4) Pf. setoid_rewrite additions_adds in P2. setoid_rewrite additions_adds in P3. setoid_rewrite additions_adds in P4.
  assert (Inp : forall i k s, In (k, s) (adds (mine i order)) -> In (k, s) (adds (progs i))).
  { intros i k s I. destruct (prefix_adds (Pf i)) as [r ->]. apply in_or_app. auto. }
  assert (Inq : forall i k, In k (map fst (adds (mine i order))) -> In k (map fst (adds (progs i)))).
  { intros i k I. apply in_map_iff in I as ([k' s] & E & I). cbn in E. subst k'. apply in_map_iff. exists (k, s). auto. }
  split; [|split].
  - apply Forall_forall. intros o I. apply in_map_iff in I as ([i o'] & E & I). cbn in E. subst o'. intros ->.
    apply (P1 i). destruct (Pf i) as [r ->]. apply in_or_app. left. apply mine_In. exact I.
  - apply Forall_forall. intros [k s] I. cbn [snd]. destruct (adds_some_mine _ _ _ I) as [i Ii]. apply (P2 i k). auto.
  - apply merged_nodup.
    + intros i. specialize (P3 i). destruct (prefix_adds (Pf i)) as [r Er]. rewrite Er, map_app in P3.
      clear -P3. induction (map fst (adds (mine i order))) as [|x l IHl]; [constructor|]. inversion P3; subst.
      constructor; [|auto]. intros I. apply H1. apply in_or_app. auto.
    + intros i j k Ne I1 I2. apply (P4 i j k Ne); auto.
Qed.

Lemma linv_prefix t0 progs order c : linv_at t0 progs order c -> forall i, prefix (mine i order) (progs i).
Proof.
  intros (A1 & A2 & _) i. rewrite <- (mine_replies i order t0), <- A1. rewrite (A2 i) at 1. eexists. reflexivity.
Qed.

Lemma ok_adds_returned (t0 : table S) progs order c k s : linv_at t0 progs order c ->
  In (k, s) (ok_adds (snd (replay t0 order))) -> was_added c k s.
Proof.
  intros (A1 & _) I. unfold ok_adds in I. apply in_flat_map in I as ([i [o x]] & I & E). cbn [snd] in E.
  destruct o as [id s' dr| | | | |]; try destruct E. destruct x as [r|]; [|destruct E]. destruct E as [E|[]]. injection E as <- <-.
  exists i, id, dr. split; [reflexivity|]. unfold returned. rewrite A1. unfold replies_of. apply in_map_iff.
  assert (r = RUnit) as ->.
  { clear A1. revert t0 I. induction order as [|[j p] q IH]; intros t0 I; [destruct I|]. cbn [replay] in I.
    destruct (do_op t0 p) as [t1 y] eqn:Ed. specialize (IH t1). destruct (replay t1 q) as [t2 l]. cbn [snd] in *.
    destruct I as [E|I]; [|auto]. injection E as -> -> ->. cbn [do_op] in Ed.
    destruct (add_sequence t0 id s' dr) as [t' [u|e]]; injection Ed as _ Ed; cbn in Ed; congruence. }
  eexists (i, (_, _)). split; [reflexivity|]. apply filter_In. split; [exact I|]. cbn. apply Nat.eqb_refl.
Qed.

(** ** C134 *)
Lemma shared_batch cols lk maxlen smp ej progs c c1 c2 i count L draws out :
  config_ok cols lk -> fresh_sampler smp -> fresh_ejector ej ->
  cooperating cols progs -> long_enough cols lk L progs -> (1 <= L)%nat ->
  csteps op_micros (start (t_create cols lk maxlen smp ej) progs) c ->
  cstep op_micros c c1 -> begins c c1 i (OSample count L draws) -> csteps op_micros c1 c2 ->
  nth_error (th_log (cf_threads c2 i)) (List.length (th_log (cf_threads c i))) = Some (OSample count L draws, Ok (RBatch out)) ->
  exists ws, List.length ws = count
    /\ Forall (fun w => was_added c (fst (fst w)) (w_seq w) /\ 0 <= w_start w
                        /\ w_start w + Z.of_nat L <= seq_len lk (w_seq w)) ws
    /\ Forall (column_of_batch cols lk out L ws) cols.
Proof.
  intros C Fs Fe Co Le HL R1 St (Hn & ms & Hb) R2 En.
  pose proof (@op_micros_ok S HS) as Hm. set (t0 := t_create cols lk maxlen smp ej) in *.
  destruct (linv_at_steps Hm (linv_at_start t0 progs) R1) as [order I0]. cbn [app] in I0.
  destruct (linv_at_step Hm I0 St) as [I1 _]. rewrite Hn, app_nil_r in I1.
  assert (EL : th_log (cf_threads c1 i) = th_log (cf_threads c i)).
  { destruct I0 as (E0 & _), I1 as (E1 & _). rewrite E0, E1. reflexivity. }
  rewrite <- EL in En.
  assert (Es : snd (t_sample (fst (replay t0 order)) count L draws) = Ok out).
  { destruct (linv_at_held Hm I1 Hb R2) as [[I2 _]|[later I2]].
    - exfalso. destruct I1 as (E1 & _), I2 as (E2 & _). rewrite E2, <- E1 in En.
      assert (nth_error (th_log (cf_threads c1 i)) (List.length (th_log (cf_threads c1 i))) = None) by (apply nth_error_None; lia). congruence.
    - destruct I1 as (E1 & _), I2 as (E2 & _). rewrite E2 in En.
      replace (order ++ (i, OSample count L draws) :: later) with ((order ++ [(i, OSample count L draws)]) ++ later) in En by (rewrite <- app_assoc; reflexivity).
      assert (Ra : forall a b (t : table S), snd (replay t (a ++ b)) = snd (replay t a) ++ snd (replay (fst (replay t a)) b)).
      { clear. induction a as [|[j p] q IH]; intros b t; [reflexivity|]. cbn [app replay]. destruct (do_op t p) as [t1 x].
        specialize (IH b t1). destruct (replay t1 (q ++ b)) as [t2 l]. destruct (replay t1 q) as [t3 l3]. cbn [fst snd app] in *. rewrite IH. reflexivity. }
      assert (Rp : forall a b, replies_of (S:=S) i (a ++ b) = replies_of i a ++ replies_of i b).
      { intros a b. unfold replies_of. rewrite filter_app, map_app. reflexivity. }
      rewrite Ra, Rp, replay_snoc in En. cbn [snd] in En. rewrite replies_snoc, Nat.eqb_refl, <- app_assoc, <- E1 in En.
      rewrite nth_error_app2 in En by lia. replace (_ - _)%nat with 0%nat in En by lia. cbn [app nth_error] in En.
      injection En as En. cbn [do_op] in En. destruct (t_sample (fst (replay t0 order)) count L draws) as [t' [o|e]]; cbn in En; [|discriminate].
      injection En as ->. reflexivity. }
  destruct (@replay_inv cols lk maxlen smp ej order C Fs Fe (cooperating_order order Co (linv_prefix I0))) as (B & I & Sb & F1 & F2).
  fold t0 in I, Sb, F1, F2.
  assert (HB : Forall (fun e => episode_ok (t_cols (fst (replay t0 order))) (t_lenkey (fst (replay t0 order))) (snd e) /\
                   Z.of_nat L <= seq_len (t_lenkey (fst (replay t0 order))) (snd e) <= 2 ^ 53) B).
  { rewrite F1, F2. apply Forall_forall. intros [k s] Ik. cbn [snd].
    apply (@sublist_In _ _ _ _ Sb) in Ik. apply (@sublist_In _ _ _ _ (ok_adds_sub t0 order)) in Ik.
    destruct (adds_some_mine _ _ _ Ik) as [j Ij]. apply (Le j k). rewrite additions_adds.
    destruct (prefix_adds (linv_prefix I0 j)) as [r ->]. apply in_or_app. auto. }
  destruct (windows_of_inv count draws I HL HB Es) as (ws & W1 & W2 & W3). rewrite F1, F2 in W3. rewrite F2 in W2.
  exists ws. split; [exact W1|]. split; [|exact W3].
  eapply Forall_impl; [|exact W2]. intros w (Wi & W0 & Wl). split; [|auto].
  apply (ok_adds_returned _ _ I0). apply (@sublist_In _ _ _ _ Sb). destruct w as [[k s] a]. exact Wi.
Qed.

(** ** When everybody is done *)
Definition tagged_adds order : list (nat * (Z * sequence S)) :=
  flat_map (fun x => map (pair (fst x)) (adds [snd x])) order.
Lemma tagged_snd order : map snd (tagged_adds order) = adds (map snd order).
Proof.
  induction order as [|[i o] r IH]; [reflexivity|]. cbn [map snd]. rewrite (adds_cons o (map snd r)), <- IH.
  unfold tagged_adds. cbn [flat_map fst snd]. rewrite map_app, map_map. f_equal. apply map_id.
Qed.
Lemma tagged_mine i order : mine i (tagged_adds order) = adds (mine i order).
Proof.
  induction order as [|[j o] r IH]; [reflexivity|]. unfold tagged_adds. cbn [flat_map fst snd].
  fold (tagged_adds r). rewrite mine_app, IH. change ((j, o) :: r) with ([(j, o)] ++ r). rewrite mine_app, adds_app. f_equal.
  unfold mine. cbn [filter fst]. destruct (Nat.eqb j i) eqn:E; destruct o; cbn; rewrite ?E; reflexivity.
Qed.

Lemma shared_final cols lk maxlen smp progs c :
  config_ok cols lk -> fresh_sampler smp -> cooperating cols progs ->
  (forall i n, ~ In (OResize n) (progs i)) ->
  (forall i k s, In (k, s) (additions (progs i)) -> seq_len lk s <= maxlen) ->
  csteps op_micros (start (t_create cols lk maxlen smp (EFifo fifo_init)) progs) c -> finished c ->
  exists h, merged progs h /\ holds (cf_table c) (longest_suffix lk maxlen (map snd h)).
Proof.
  intros C Fs Co Nr Fit R (Hn & Hd). pose proof (@op_micros_ok S HS) as Hm.
  destruct (linv_at_steps Hm (linv_at_start _ progs) R) as [order I0]. cbn [app] in I0.
  assert (Eo : forall i, mine i order = progs i).
  { intros i. destruct I0 as (A1 & A2 & _). rewrite (A2 i), Hn, (Hd i), A1, mine_replies, !app_nil_r. reflexivity. }
  exists (tagged_adds order). split.
  - intros i. rewrite additions_adds, <- Eo. apply (tagged_mine i order).
  - destruct I0 as (A1 & A2 & A3). rewrite Hn in A3. rewrite A3, replay_run, tagged_snd.
    apply fifo_longest_suffix; auto.
    + apply (cooperating_order order Co). intros i. exists []. rewrite app_nil_r. symmetry. apply Eo.
    + apply Forall_forall. intros o I. apply in_map_iff in I as ([i o'] & E & I). cbn in E. subst o'.
      destruct o; cbn; auto. apply (Nr i n). rewrite <- Eo. apply mine_In. exact I.
    + apply Forall_forall. intros [k s] I. cbn [snd]. destruct (adds_some_mine _ _ _ I) as [i Ii].
      apply (Fit i k). rewrite additions_adds, <- Eo. exact Ii.
Qed.
End Share.
